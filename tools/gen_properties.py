#!/usr/bin/env python3
"""Writes properties.jsonl. Properties are numbered in the order they are listed here."""
import json, sys

P = []

def p(title, statement, quantifier, why, *anchors):
    P.append(dict(id="C%02d" % (len(P) + 1), title=title, statement=statement,
                  quantifier=quantifier, why_tests_cant=why, anchors=list(anchors)))

SP = "staking-pool/src/lib.rs"
SI = "staking-pool/src/internal.rs"

# ---------------------------------------------------------------- staking pool
p("Stake share price never decreases",
  "Whatever public method of the staking pool anybody calls, and whatever rewards arrive, the ratio total staked balance / total stake shares after the call is at least the ratio before it.",
  "every initial balance, every finite history of public calls by arbitrary accounts with arbitrary arguments and deposits, interleaved with epoch changes and rewards",
  "Rounding losses of one yoctoNEAR appear only for particular residues of products of 128-bit numbers, and must be excluded for every history.",
  SI + ":internal_stake", SI + ":inner_unstake", SI + ":internal_ping")
p("Stake share price is at least one",
  "In every reachable state of the pool the total number of stake shares is at most the total staked balance.",
  "every initial balance and every finite history of calls, rewards and epochs",
  "It is an invariant of an unbounded history.",
  SP + ":new", SI + ":internal_stake", SI + ":inner_unstake", SI + ":internal_ping")
p("Stake shares are conserved",
  "In every reachable state the total number of stake shares equals the shares minted at initialisation plus the sum of the shares of all accounts listed by the pool.",
  "every history and every set of accounts",
  "A sum over an unbounded set of accounts after an unbounded history.",
  SI + ":internal_save_account", SI + ":internal_stake", SI + ":inner_unstake", SI + ":internal_ping")
p("The pool is solvent; each stake or unstake costs the guarantee fund at most one yoctoNEAR",
  "At any time the tokens held by the pool account (locked plus unlocked) are at least the total staked balance plus all unstaked balances plus 10^12 minus the number of successful stake and unstake calls so far.",
  "every history of calls by any accounts, any deposits, any non-negative rewards, any split between locked and unlocked balance",
  "Needs every rounding case over an unbounded number of operations.",
  SP + ":STAKE_SHARE_PRICE_GUARANTEE_FUND", SI + ":internal_stake", SI + ":inner_unstake", SI + ":internal_withdraw")
p("A delegator never loses tokens",
  "For every account, at every moment, the total balance the pool reports for it plus everything the pool has already transferred to it is at least everything it has deposited.",
  "every account, every history of calls by it and by everyone else including the pool owner",
  "Quantifies over all interleavings of all users and all rounding outcomes.",
  SP + ":get_account_total_balance", SP + ":deposit", SP + ":withdraw", SI + ":internal_stake", SI + ":inner_unstake")
p("Whatever was staked can be unstaked at once",
  "When a stake call is accepted and charges X to the unstaked balance, X is positive and at most the requested amount, the reported staked balance grows by at least X, and unstaking X is accepted by the pool logic immediately afterwards.",
  "every reachable state, caller and amount",
  "Depends on rounding at every price.",
  SI + ":internal_stake", SI + ":inner_unstake")
p("Unstake is accepted exactly up to the reported staked balance",
  "In a state whose rewards are up to date, unstake(a) is accepted if and only if 0 < a <= the staked balance the pool reports for the caller; it credits at least a and less than a plus the share price plus one.",
  "every reachable state, caller and amount within the token supply",
  "A boundary property over all 128-bit amounts and prices.",
  SP + ":unstake", SP + ":get_account_staked_balance", SI + ":inner_unstake")
p("unstake_all leaves nothing staked",
  "A successful unstake_all burns every share of the caller and credits at least the reported staked balance to their unstaked balance.",
  "every reachable state and caller",
  "The amount goes through two roundings in opposite directions; equality must hold for every price.",
  SP + ":unstake_all", SI + ":inner_unstake")
p("Other people's calls cannot touch an account",
  "A call made by one account, the pool owner included, never changes the unstaked balance or the unlock epoch of a different account, never lowers its shares, never lowers its reported staked balance, and changes its shares only if it is the owner receiving the reward fee.",
  "every pair of accounts, every public call, every reachable state",
  "A frame property over all methods and all states.",
  SI + ":internal_save_account", SI + ":internal_ping", SP + ":update_reward_fee_fraction", SP + ":pause_staking")
p("Unstaked tokens are withheld for four epochs and not longer",
  "If a withdrawal by an account succeeds in epoch e, every earlier successful unstake whose proceeds are still unstaked happened in epoch e-4 or earlier; conversely in any epoch at or after the last unstake's epoch plus four the delay check never rejects a withdrawal.",
  "every history of calls and epoch changes",
  "Depends on the whole history of the account, including deposits and re-stakes made in between.",
  SI + ":internal_withdraw", SI + ":inner_unstake", SP + ":NUM_EPOCHS_TO_UNLOCK")
p("Only withdrawals pay out, and they pay the caller",
  "Any token transfer issued by the pool is issued by a withdraw or withdraw_all call, goes to the caller of that call, and equals the decrease of that caller's unstaked balance.",
  "every public call in every state",
  "A statement over all methods and arguments.",
  SI + ":internal_withdraw", SP + ":withdraw", SP + ":withdraw_all")
p("Rewards are distributed exactly once per epoch and the owner's cut is bounded by the fee",
  "The first call of an epoch increases the total staked balance by exactly the growth of the account's total balance, and the shares minted for the owner are worth at most fee_fraction * reward at the price after distribution; later calls in the same epoch distribute nothing.",
  "every state, reward and fee fraction",
  "The bound involves nested integer divisions.",
  SI + ":internal_ping", SP + ":RewardFeeFraction")
p("Owner-only methods",
  "update_staking_key, update_reward_fee_fraction, vote, pause_staking and resume_staking fail without effect for anybody who is not the owner, and the owner of a pool never changes.",
  "every caller, every history", "Universal over callers and histories.",
  SI + ":assert_owner", SP + ":owner methods")
p("Stake actions always stake the recorded total, and never while paused",
  "Every stake action issued by a pool method other than pause_staking and the failure handler stakes exactly the total staked balance recorded after that method with the current staking key, and is issued only when the pool is not paused after it; pause_staking stakes zero.",
  "every public call in every state",
  "Universal over methods and states.",
  SI + ":internal_restake", SP + ":pause_staking", SP + ":resume_staking", SP + ":ping")
p("A delegator can always exit",
  "From any reachable state with fewer than 10^12 stake/unstake calls and a token supply below 2^128, unstake_all by an account that has a positive staked balance succeeds; after any further calls by others and at least four epochs, withdraw_all by it succeeds provided the protocol has unlocked the tokens, and pays at least the total balance it had been shown before the unstake.",
  "every reachable state, every continuation by the other accounts",
  "Liveness under arbitrary interference.",
  SP + ":unstake_all", SP + ":withdraw_all", SI + ":internal_ping")
p("Account listing is complete and duplicate free",
  "get_accounts pages of any fixed size, concatenated, list every account with a non-zero balance exactly once and nobody else, and get_number_of_accounts is the length of that list.",
  "every reachable state and every page size",
  "The order of the list changes with every removal; needs all histories.",
  SP + ":get_accounts", SP + ":get_number_of_accounts", SI + ":internal_save_account")
p("The reward fee is always between 0 and 1",
  "In every reachable state the fee fraction has a non-zero denominator and a numerator not above it, so the owner's fee never exceeds the reward.",
  "every history of updates", "Invariant over histories.",
  SP + ":RewardFeeFraction::assert_valid", SP + ":update_reward_fee_fraction", SP + ":new")
p("A failed stake action is undone and the handler is private",
  "on_stake_action can only be called by the pool itself, never changes the pool's records, and issues a zero stake exactly when the stake action failed and tokens are still locked.",
  "every caller, promise result and locked balance", "Universal over callers and callback results.",
  SP + ":on_stake_action")
p("The initial stake can never be withdrawn",
  "In every reachable state the total staked balance minus what all accounts together can claim is at least the balance staked at initialisation: shares minted at initialisation stay unowned for ever.",
  "every history", "Invariant over histories.",
  SP + ":new", SI + ":inner_unstake")
p("Pool views never fail once the pool was started with more than the guarantee fund",
  "If the pool was initialised with more than 10^12 yoctoNEAR, every balance view succeeds in every reachable state; with exactly 10^12 the balance views fail forever.",
  "every history", "Divisions by totals that must be shown non-zero in every reachable state.",
  SP + ":get_account", SI + ":staked_amount_from_num_shares_rounded_down")

# ---------------------------------------------------------------- voting
V = "voting/src/lib.rs"
p("The vote tally equals the sum of recorded votes",
  "In every reachable state of the voting contract the total voted stake is the sum of the recorded votes, no account is recorded twice, and every recorded vote is positive.",
  "every history of vote and ping calls over any validator sets", "Invariant over histories and stake assignments.",
  V + ":ping", V + ":vote")
p("Voting passes exactly when more than two thirds of the stake is voting yes",
  "The result is set by a call if and only if, after counting that call, the current-epoch stakes of the accounts voting yes add up to strictly more than two thirds of the total stake of the current epoch.",
  "every history in which stakes are constant within an epoch",
  "The code compares with a truncated division; equivalence with the exact inequality is needed for every stake distribution.",
  V + ":check_result", V + ":ping", V + ":vote")
p("The result is final",
  "Once the result is set no call changes the result, the votes or the tally, and every later vote or ping fails.",
  "every continuation", "Universal over continuations.",
  V + ":ping", V + ":vote", V + ":get_result")
p("Votes weigh the current stake and only for validators",
  "After any successful ping or vote in epoch e every recorded vote equals the voter's stake in epoch e; accounts without stake never have a vote recorded; a vote call changes only the caller's vote.",
  "every history, epoch and stake assignment", "Invariant over epochs.",
  V + ":ping", V + ":vote")
p("The tally does not depend on map iteration order",
  "Re-tallying at an epoch change gives the same votes and total whatever order the hash map is iterated in.",
  "every permutation of the recorded votes", "The iteration order of HashMap is unspecified.",
  V + ":ping")

# ---------------------------------------------------------------- whitelist
W = "whitelist/src/lib.rs"
p("Whitelist answers follow the authorised history",
  "is_whitelisted(p) is true exactly when the last successful add or remove of p in the history was an add, where an add succeeds only if made by the foundation or by a factory that is whitelisted at that moment and a remove only by the foundation; the same for factories, with the foundation alone.",
  "every history of calls by arbitrary accounts", "Universal over histories.",
  W + ":add_staking_pool", W + ":remove_staking_pool", W + ":add_factory", W + ":remove_factory", W + ":is_whitelisted")
p("The two whitelists do not interfere",
  "Adding or removing a pool never changes the answer for any other pool or for any factory, and vice versa, at the level of the storage keys the contract uses.",
  "every pair of account names and every state", "Needs injectivity of the storage key encoding.",
  W + ":WhitelistContract", W + ":new")
p("A removed factory loses its power at once",
  "After a successful remove_factory(f), no add_staking_pool by f succeeds until the foundation adds f again; pools it added before stay.",
  "every continuation", "Universal over continuations.",
  W + ":remove_factory", W + ":add_staking_pool")

# ---------------------------------------------------------------- multisig
M = "multisig/src/lib.rs"
p("Multisig: execution needs the required number of distinct keys",
  "Whenever a request's actions are executed there are at least num_confirmations distinct keys (and at least one) that each successfully confirmed that very request after it was created.",
  "every history of calls", "Universal over histories and interleavings.",
  M + ":confirm", M + ":execute_request")
p("Multisig: a request is executed at most once and ids are never reused",
  "Request ids are handed out in strictly increasing order, and for each id the actions are executed at most once, after which the request is gone.",
  "every history", "Universal over histories.",
  M + ":add_request", M + ":confirm", M + ":remove_request")
p("Multisig: request counters are exact",
  "For every key the number of active requests reported equals the number of active requests that key created; adding beyond the limit in force is rejected.",
  "every history, including key deletions during execution", "Counters are updated in several places, also inside execution.",
  M + ":add_request", M + ":remove_request", M + ":execute_request")
p("Multisig: requests and confirmations stay in step",
  "A request exists if and only if its confirmation set exists, so the internal-error branches are unreachable.",
  "every history", "Invariant over histories.",
  M + ":add_request", M + ":confirm", M + ":remove_request", M + ":execute_request")
p("Multisig: only the account itself can change anything",
  "Every state-changing method fails without effect when the predecessor is not the multisig account.",
  "every caller, state and argument", "Universal over callers and arguments.",
  M + ":add_request", M + ":delete_request", M + ":confirm", M + ":assert_valid_request")
p("Multisig: deletion cooldown",
  "A request can be deleted by delete_request only strictly more than 15 minutes after it was created.",
  "every history with non-decreasing block times", "Universal over times.",
  M + ":delete_request", M + ":REQUEST_COOLDOWN")
p("Multisig: keys and settings change only through a confirmed request to itself",
  "num_confirmations, the request limit and the account's keys change only by executing a request whose receiver is the multisig account; a request containing AddKey or DeleteKey for another receiver can never be executed, and settings changes are only executed as single-action requests.",
  "every history", "Universal over histories.",
  M + ":execute_request", M + ":assert_self_request", M + ":assert_one_action_only")
p("Multisig: confirmations of a deleted key stop counting",
  "After a key is deleted through a DeleteKey request its earlier confirmations do not count towards executing other requests.",
  "every history", "Needs a history in which a key confirms, is deleted and the request is then executed.",
  M + ":execute_request", M + ":confirm")
p("Multisig: a request with enough confirmations does not linger",
  "No active request has a number of confirmations at or above num_confirmations.",
  "every history, including changes of num_confirmations", "Depends on the order of settings changes and confirmations.",
  M + ":confirm", M + ":execute_request")

M2 = "multisig2/src/lib.rs"
p("Multisig2: execution needs the required number of distinct members",
  "Whenever a request is executed there are at least num_confirmations (and at least one) distinct members that each confirmed that very request while being members.",
  "every history", "Universal over histories.",
  M2 + ":confirm", M2 + ":execute_request", M2 + ":current_member")
p("Multisig2: only members act",
  "add_request, add_request_and_confirm, confirm and delete_request fail without effect unless the caller is a current member (an access key of the account or a member account).",
  "every caller and state", "Universal over callers.",
  M2 + ":current_member", M2 + ":assert_valid_request", M2 + ":add_request")
p("Multisig2: executed at most once, ids never reused, counters exact",
  "Ids strictly increase, each id is executed at most once, and each member's active-request counter equals the number of its active requests.",
  "every history", "Universal over histories.",
  M2 + ":add_request", M2 + ":remove_request", M2 + ":delete_member")
p("Multisig2: the members can always reach the quorum",
  "In every reachable state the number of distinct members is at least num_confirmations.",
  "every initial configuration and every history", "Depends on initial duplicates and on settings changes.",
  M2 + ":new", M2 + ":delete_member", M2 + ":execute_request")
p("Multisig2: confirmations of a removed member stop counting",
  "After a member is removed its earlier confirmations do not count towards executing other requests.",
  "every history", "Needs a particular interleaving.",
  M2 + ":delete_member", M2 + ":confirm")
p("Multisig2: member keys can call every member method",
  "The access key installed for a key member allows calling each of the contract's member methods, and every allowed method name exists.",
  "every member key", "It relates a string constant to the set of exported methods.",
  M2 + ":MULTISIG_METHOD_NAMES", M2 + ":add_member", M2 + ":add_request_and_confirm")
p("Multisig2: distinct members never share a confirmation identity",
  "The textual form under which confirmations and counters are stored is different for different members.",
  "every pair of members", "Injectivity over all strings.",
  M2 + ":MultisigMember", M2 + ":to_string")

# ---------------------------------------------------------------- lockup
L = "lockup/src/lib.rs"
LG = "lockup/src/getters.rs"
LO = "lockup/src/owner.rs"
LOC = "lockup/src/owner_callbacks.rs"
LF = "lockup/src/foundation.rs"
LFC = "lockup/src/foundation_callbacks.rs"
LI = "lockup/src/internal.rs"
LT = "lockup/src/types.rs"
p("Lockup: the locked amount never grows with time",
  "For a fixed contract state the locked amount at a later block time is at most the locked amount at an earlier one, given a valid vesting schedule.",
  "all pairs of times, all amounts, durations and valid schedules", "Piecewise integer arithmetic over all 64-bit times.",
  LG + ":get_locked_amount", LG + ":get_unvested_amount")
p("Lockup: exact lockup and vesting schedule",
  "Before the lockup ends, or while transfers are disabled, the whole lockup amount (less what was terminated) is locked; afterwards the locked amount is the larger of the linearly released remainder and the linearly vested remainder with cliff, rounded down; after both ends it is zero; it never exceeds the lockup amount.",
  "all times, amounts, durations and valid schedules", "Boundaries over all 64-bit times and 128-bit amounts.",
  LG + ":get_locked_amount", LG + ":get_unvested_amount")
p("Lockup: the owner cannot move locked tokens",
  "In every interleaving of owner calls, foundation calls, promise results and callbacks, with a staking pool that keeps its guarantees, the tokens under the lockup's control (own balance, tokens in flight, balance at the pool), counting payments to the foundation whose arrival is not recorded yet, are at all times at least the locked amount; a public vesting schedule is valid, and a private one that is revealed is covered by the lockup, as documented.",
  "every schedule of calls, receipts and callbacks, every time", "Asynchronous interleavings are unbounded.",
  LO + ":transfer", LO + ":deposit_to_staking_pool", LO + ":withdraw_from_staking_pool", LOC + ":on_staking_pool_withdraw", LG + ":get_liquid_owners_balance")
p("Lockup: at most one staking pool operation at a time",
  "At any time at most one call chain from the lockup to the staking pool is outstanding, and the pool status is busy exactly while one is.",
  "every schedule of calls and callbacks in which pool views answer", "Asynchronous interleavings are unbounded.",
  LI + ":set_staking_pool_status", LI + ":assert_staking_pool_is_idle", LO, LOC, LFC)
p("Lockup: the recorded deposit never exceeds the real balance at the pool",
  "When no operation is outstanding the lockup's known deposited balance is at most the total balance the pool reports for it, when the pool is the staking-pool contract of this repository.",
  "every schedule, every activity of other delegators", "Needs the composition of two contracts over all schedules.",
  LOC + ":on_staking_pool_deposit", LOC + ":on_staking_pool_withdraw", LOC + ":on_get_account_total_balance", SP + ":get_account_total_balance")
p("Lockup: the foundation takes at most the unvested amount",
  "The total the foundation ever receives through termination is at most the unvested amount at the moment of termination, and exactly that amount once the termination is complete.",
  "every schedule after a termination", "Partial withdrawals and failures interleave arbitrarily.",
  LF + ":terminate_vesting", LF + ":termination_withdraw", LFC + ":on_withdraw_unvested_amount")
p("Lockup: the owner is frozen while a termination is in progress",
  "While termination is in progress no owner method changes anything or moves tokens.",
  "every owner method and argument, every state", "Universal over methods.",
  LI + ":assert_no_termination", LO)
p("Lockup: termination follows the documented state machine",
  "The termination status only moves along the documented transitions, and can leave Terminating only by full payment of the unvested amount.",
  "every schedule", "Asynchronous interleavings.",
  LI + ":set_termination_status", LF, LFC)
p("Lockup: the owner cannot block a termination",
  "From every reachable state with a termination in progress, with a pool that answers and pays, there is a continuation consisting only of foundation calls and deliveries of outstanding messages after which the foundation has received the whole unvested amount (up to the storage reserve).",
  "every reachable state", "Liveness from every reachable state.",
  LF + ":termination_prepare_to_withdraw", LF + ":termination_withdraw", LFC)
p("Lockup: full access only after everything is unlocked",
  "add_full_access_key succeeds only for the owner, with transfers enabled, no termination, no busy pool operation and a locked amount of zero, and it is the only method that adds a key.",
  "every state and time", "Universal over states.",
  LO + ":add_full_access_key")
p("Lockup: every method is limited to its caller",
  "Owner methods fail for anyone but the owner, termination methods for anyone but the foundation, callbacks for anyone but the contract itself.",
  "every caller, method and state", "Universal over callers.",
  LI + ":assert_owner", LI + ":assert_called_by_foundation", LOC, LFC)
p("Lockup: only whitelisted pools are ever used",
  "Every call the lockup sends to a staking pool goes to the pool that is selected, and the whitelist has answered true for it before.",
  "every schedule", "Asynchronous interleavings of selections.",
  LO + ":select_staking_pool", LOC + ":on_whitelist_is_whitelisted", LO + ":unselect_staking_pool")
p("Lockup: enabling transfers is irreversible",
  "Once transfers are enabled they stay enabled with the same timestamp, and they are enabled only by a poll result.",
  "every schedule", "Universal over schedules.",
  LO + ":check_transfers_vote", LOC + ":on_get_result_from_transfer_poll")
p("Lockup: initialisation guarantees a sane vesting schedule",
  "Every lockup that initialisation accepts has an unvested amount that is defined at all times and never above the lockup amount.",
  "every initialisation argument accepted by the contract", "Needs the full range of schedules, including ones a test author would not write.",
  L + ":new", LT + ":VestingSchedule::assert_valid", LG + ":get_unvested_amount")
p("Lockup: a pool operation always returns to idle",
  "After the messages of a staking operation have been delivered the pool status is idle again, whatever the outcome of the pool call.",
  "every operation and every pool outcome, failures included", "Failure outcomes of remote views.",
  LOC + ":on_get_account_total_balance", LOC + ":on_get_account_unstaked_balance_to_withdraw_by_owner", LFC)
p("Lockup: transfers keep the storage reserve and respect liquidity",
  "A successful transfer is made with transfers enabled, is at most the liquid owner's balance reported just before, and leaves at least 3.5 NEAR in the account.",
  "every state, time and amount", "Universal over states.",
  LO + ":transfer", LG + ":get_liquid_owners_balance", LI + ":get_account_balance")
p("Lockup: the gas a method attaches fits the documented requirement",
  "For every method that creates promises the gas attached along the whole promise chain plus the base cost equals at most the documented requirement.",
  "every method and every nested callback", "A sum over nested callbacks.",
  "lockup/src/gas.rs", LO, LF, LFC)

# ---------------------------------------------------------------- factories
PF = "staking-pool-factory/src/lib.rs"
p("Pool factory: the deposit is never lost",
  "Every accepted create_staking_pool either ends with the pool created holding the attached deposit or with the whole deposit returned to the caller, exactly once.",
  "every schedule of creations and callbacks", "Asynchronous interleavings.",
  PF + ":create_staking_pool", PF + ":on_staking_pool_create")
p("Pool factory: pool names are unique and inside the factory",
  "Two creations never target the same account at the same time or after success, distinct names give distinct accounts, and each account is a direct valid sub-account of the factory.",
  "every schedule and every pair of names", "Injectivity over all strings and interleavings.",
  PF + ":create_staking_pool", PF + ":on_staking_pool_create")
p("Pool factory: only its own successfully created pools are whitelisted",
  "The factory asks the whitelist to add an account only after that account was created by it, running the pool code with a valid fee, and a failed creation leaves no trace in the list of pools.",
  "every schedule", "Asynchronous interleavings.",
  PF + ":on_staking_pool_create", PF + ":create_staking_pool")
LFA = "lockup-factory/src/lib.rs"
p("Lockup factory: derived account names are always valid",
  "For every owner the lockup account name is deterministic, is a valid account name of at most 64 characters, and is a direct sub-account of the factory.",
  "every owner and every factory name accepted at initialisation", "Universal over names.",
  LFA + ":new", LFA + ":create")
p("Lockup factory: created lockups initialise",
  "The arguments the factory passes satisfy every check of the lockup contract's initialisation, the foundation controls exactly the lockups with a vesting schedule, and transfers are enabled with the fixed timestamp.",
  "every accepted create call", "Relates two contracts over all arguments.",
  LFA + ":create", L + ":new")
p("Lockup factory: failed creation refunds the caller",
  "Every accepted create ends with the lockup holding the deposit or the whole deposit returned to the caller, exactly once.",
  "every schedule", "Asynchronous interleavings.",
  LFA + ":create", LFA + ":on_lockup_create")
p("Multisig factory: failed creation refunds the caller",
  "Every accepted create ends with the multisig holding the deposit or the deposit returned to the caller.",
  "every create call", "Needs a failing promise.",
  "multisig-factory/src/lib.rs:create")

# ---------------------------------------------------------------- w-near
WN = "w-near/src/w_near.rs"
p("wNEAR: supply equals the sum of balances",
  "In every reachable state the total supply equals the sum of all account balances.",
  "every history of deposits, withdrawals, transfers, transfer calls and their resolutions, registrations and unregistrations", "Unbounded histories and interleaved callbacks.",
  WN + ":near_deposit", WN + ":near_withdraw", "w-near/src/lib.rs:Contract")
p("wNEAR: fully backed",
  "At all times the NEAR held by the contract is at least the total supply plus the storage deposits of all registered accounts.",
  "every history", "Unbounded histories.",
  WN + ":near_deposit", WN + ":near_withdraw")
p("wNEAR: deposits and withdrawals are one to one",
  "near_deposit mints exactly the attached amount less the storage cost for a new account; near_withdraw(a) burns exactly a and pays a plus the attached yoctoNEAR to the caller; nobody else's balance changes.",
  "every caller, amount and state", "Universal over amounts.",
  WN + ":near_deposit", WN + ":near_withdraw")

# ---------------------------------------------------------------- state manipulation
SM = "state-manipulation/src/lib.rs"
p("State manipulation: replace and clean do exactly what they are told",
  "After replace the value of every listed key is the last listed value and every other key is unchanged; after clean every listed key is absent and every other key is unchanged; an undecodable entry leaves everything unchanged.",
  "every storage content and every list of entries", "Universal over storage contents and lists with repeated keys.",
  SM + ":replace", SM + ":clean")

# ---------------------------------------------------------------- added later
p("Staking pool: what a pool can be created with",
  "Creating a pool succeeds exactly when the contract has no state yet, the fee is a fraction between 0 and 1 with a non-zero denominator, the owner id is a valid account id, the balance is at least the guarantee fund and nothing is staked.",
  "every owner id, fee, balance and prior state", "Universal over inputs, both directions.",
  SP + ":new", SP + ":RewardFeeFraction")

p("Contracts are created once, with the state their creator asked for",
  "Each contract can be initialised once only; initialisation fails on invalid arguments (whitelist: invalid foundation id; staking pool: invalid owner, a fee that is no fraction, too few tokens; lockup: invalid accounts, a deposit, a foundation without a vesting or a vesting without one; multisig2: fewer members than confirmations; factories: invalid accounts, or a name too long for the accounts to be created) and otherwise gives exactly the requested configuration and nothing else: no votes, no listed pools, no requests, no accounts, no selected pool.",
  "every argument and every prior state", "Universal over arguments, both directions.",
  "whitelist/src/lib.rs:new", "voting/src/lib.rs:new", "multisig/src/lib.rs:new", "multisig2/src/lib.rs:new", "staking-pool-factory/src/lib.rs:new", "lockup-factory/src/lib.rs:new")
p("Multisig2: members and settings change only by execution",
  "The members, the number of required confirmations and the request limit change only when a request addressed to the account itself is executed; a setting changes only as the single action of its request, and afterwards the members are exactly those obtained by applying the request's member actions in order; what is scheduled is exactly what the request asked for.",
  "every history", "Universal over histories.",
  "multisig2/src/lib.rs:execute_request", "multisig2/src/lib.rs:add_member", "multisig2/src/lib.rs:delete_member")

p("wNEAR: only the owner spends",
  "An account's balance gets smaller only by its owner's own withdrawal, transfer, transfer call or forced unregistration, or by the settlement of a transfer call it received, which takes back at most what it did not use. A transfer succeeds exactly when the sender has the amount and sender and receiver are different registered accounts, and moves exactly the amount.",
  "every history, next event and account", "Universal over histories with callbacks in flight.",
  "w-near/src/lib.rs:impl_fungible_token_core", WN + ":near_withdraw")
p("wNEAR: storage deposits are returned",
  "Registering an account costs exactly the storage price, whoever pays it; everything above is refunded at once; unregistering returns the price; tokens are destroyed only when their owner unregisters with force, and no other balance changes.",
  "every history, caller and amount", "Universal over histories and amounts.",
  "w-near/src/lib.rs:impl_fungible_token_storage", WN + ":near_deposit")
p("wNEAR: transfer calls are settled exactly once",
  "Every accepted transfer call is settled once: the part that the receiver reports as unused (all of it if the receiver fails), limited to what the receiver still has, goes back to the sender; if the sender has unregistered it is destroyed; settlement never fails for want of anything but gas, and nobody else is affected.",
  "every schedule of receivers, failures and calls in between", "Asynchronous interleavings.",
  "w-near/src/lib.rs:impl_fungible_token_core")
p("wNEAR: everybody can leave",
  "In every reachable state all holders can withdraw their whole balance, in any order, and every one of these withdrawals is accepted and paid.",
  "every history and every order of the holders", "Unbounded histories.",
  WN + ":near_withdraw")

p("Lockup with this pool: the owner can always leave",
  "Whatever happened before between a lockup and the staking pool of this repository, and whatever is outstanding, as long as no termination is in progress the owner alone can bring everything back: there is a continuation made only of the owner's calls, of deliveries of what is outstanding and of epochs passing, after which nothing is outstanding, the pool holds nothing for the lockup, and the lockup's account has at least everything the lockup controlled before.",
  "every history of the two contracts, every point in it, every behaviour of the other receivers and of the protocol's unlocking of stake", "Existence of a continuation from every reachable state.",
  "lockup/src/owner.rs:unstake_all", "lockup/src/owner.rs:withdraw_all_from_staking_pool", "staking-pool/src/lib.rs:unstake_all", "staking-pool/src/lib.rs:withdraw")
p("Lockup with this pool: everything not locked can be paid out",
  "Once transfers are enabled, and as long as no termination is in progress, the owner of a lockup that uses the staking pool of this repository can, by their own calls alone, have all that the lockup controls above the locked amount (or above the storage reserve if that is more) paid to any account, rewards included.",
  "every history of the two contracts, every point in it, every receiver", "Existence of a continuation from every reachable state.",
  "lockup/src/owner.rs:transfer", "lockup/src/getters.rs:get_liquid_owners_balance", "staking-pool/src/lib.rs:withdraw")

p("All contracts together: a lockup's tokens go to listed pools only",
  "A lockup deployed with this repository's whitelist sends requests and tokens only to staking pools that the whitelist had listed at some earlier moment; as long as the foundation lists no pool itself and no other factory, these are pools that the staking pool factory of this repository has created, with the verified code.",
  "every interleaving of calls to the lockup, the whitelist, the factory and the pools, and of the messages between them", "Trust chain across four contracts and all message orders.",
  "lockup/src/owner.rs:select_staking_pool", "lockup/src/owner_callbacks.rs:on_whitelist_is_whitelisted", "whitelist/src/lib.rs:add_staking_pool", "staking-pool-factory/src/lib.rs:on_staking_pool_create")
p("All contracts together: a lockup needs to trust nobody's pool",
  "In a deployment of the repository's own contracts under that policy, the lockup's guarantees hold with no assumption on the behaviour of pools: balance, tokens in flight and what the selected pool reports cover the locked amount; the recorded deposit is at the pool; the lockup is busy exactly while one operation is outstanding.",
  "every interleaving of calls, messages, rewards, epochs and failures, however many pools the factory has created", "Composition of unbounded histories of five contracts.",
  "lockup/src/internal.rs", "lockup/src/getters.rs", "staking-pool/src/lib.rs", "staking-pool-factory/src/lib.rs", "whitelist/src/lib.rs")
p("All contracts together: transfers are enabled by two thirds of the stake",
  "Transfers of a lockup created with the voting contract as its poll get enabled only with the voting contract's result as timestamp, which was set by a call after which validators standing by a yes vote held more than two thirds of the stake; before that no transfer and no full access key is granted to the owner.",
  "every history of the voting contract and the lockup", "Composition of two contracts' histories.",
  "lockup/src/owner.rs:check_transfers_vote", "lockup/src/owner_callbacks.rs:on_get_result_from_transfer_poll", "voting/src/lib.rs:get_result", "voting/src/lib.rs:ping")
p("All contracts together: nobody can be locked in",
  "In a deployment of the repository's own contracts, from every reachable state, the owner alone can bring everything back from the selected pool and, once transfers are enabled, have all that is not locked paid out; after a termination the foundation alone can collect the unvested amount up to the storage reserve.",
  "every history of all contracts and every point in it", "Existence of a continuation from every reachable state.",
  "lockup/src/owner.rs", "lockup/src/foundation.rs", "staking-pool/src/lib.rs", "voting/src/lib.rs", "whitelist/src/lib.rs")

p("Factories and wNEAR: callbacks are private",
  "The callbacks that report the outcome of a creation to a factory, and the settlement of a wNEAR transfer call, can be executed by nobody but the contract itself, with whatever arguments, attached deposit and promise results, so nobody can forge an outcome.",
  "every caller, argument, state and promise result", "Universal over callers and results.",
  "staking-pool-factory/src/lib.rs:on_staking_pool_create", "lockup-factory/src/lib.rs:on_lockup_create", "w-near/src/lib.rs:impl_fungible_token_core")

p("Staking pool: rewards are shared in proportion to the stake",
  "The first call in an epoch gives the owner exactly the fee fraction of the reward (rounded down, paid in shares, rounded down) and everybody else their proportion of the rest: a delegator with staked balance b of a total T gets at least floor(b * rest / T), and nobody but the owner gets more up to one yoctoNEAR and one share in all; unstaked balances earn nothing.",
  "every history, reward, fee and account", "Universal over histories and amounts; rounding.",
  SP + ":ping", "staking-pool/src/internal.rs:internal_ping")

p("Multisig: a quorum of keys can always act",
  "Whatever happened before, as many different keys as confirmations are required can get any well-formed request executed by their own calls alone, at any times, nobody else being needed; the confirmation that completes the number executes the request and schedules exactly what it asks for, and a confirmation executes nothing otherwise.",
  "every history of calls, every well-formed request, every set of keys of the required size", "Existence of a continuation from every reachable state; equivalence over all histories.",
  "multisig/src/lib.rs:confirm", "multisig/src/lib.rs:add_request_and_confirm", "multisig/src/lib.rs:execute_request")
p("Multisig2: a quorum of members can always act",
  "Whatever happened before, as many different members as confirmations are required can get any request that can be executed executed by their own calls alone, at any times, nobody else being needed; the confirmation that completes the number executes the request and schedules exactly what it asks for, and a confirmation executes nothing otherwise.",
  "every history of calls, every executable request, every set of members of the required size", "Existence of a continuation from every reachable state; equivalence over all histories.",
  "multisig2/src/lib.rs:confirm", "multisig2/src/lib.rs:add_request_and_confirm", "multisig2/src/lib.rs:execute_request")

p("Multisig2: the account acts only by quorum",
  "An account guarded by the second multisig, whose keys can only call the multisig, sends something to another account, be it tokens or a call, only if a request that asked for exactly that was confirmed by as many different members as required, all of them members at that time; every executed request leaves once. This covers everything that can happen to the account: transactions signed with any of its keys, calls by other accounts, deliveries in any order. It holds as long as the members approve no request that replaces the contract's code or adds a key of another kind.",
  "every history of transactions, calls and deliveries, every set of keys, every time", "Unbounded histories including the protocol's access keys and receipts.",
  "multisig2/src/lib.rs:new", "multisig2/src/lib.rs:execute_request", "multisig2/src/lib.rs:add_member", "multisig2/src/lib.rs:assert_valid_request")
p("Multisig2: the members can make the account act",
  "A multisig created with different members on an account without keys gives every key member an access key that can add and confirm requests; from every reachable state a quorum of members who hold such keys, or are accounts, can by their own transactions and calls alone make the account send anything they want to another account. A key listed twice at creation voids all keys: if all members are keys the account is then locked for ever.",
  "every history, every payment or call, every set of members of the required size", "Existence of a continuation from every reachable state; access keys and receipts included.",
  "multisig2/src/lib.rs:new", "multisig2/src/lib.rs:add_member", "multisig2/src/lib.rs:confirm", "multisig2/src/lib.rs:add_request")

p("Multisig: the account acts only by quorum",
  "An account guarded by the multisig, whose keys can only call the multisig, sends something to another account, be it tokens or a call, only if a request that asked for exactly that was confirmed by as many different keys as required, each of them on the account from the start or added by a request executed before; every executed request leaves once. This covers everything that can happen to the account: transactions signed with any of its keys, calls by other accounts, deliveries in any order. It holds as long as the keys approve no request that replaces the contract's code or adds a key of another kind.",
  "every history of transactions, calls and deliveries, every set of keys, every time", "Unbounded histories including the protocol's access keys and receipts.",
  "multisig/src/lib.rs:execute_request", "multisig/src/lib.rs:confirm", "multisig/src/lib.rs:assert_valid_request")
p("Multisig: the keys can make the account act",
  "From every reachable state a quorum of keys that may add and confirm requests can by their own transactions alone make the account send anything they want to another account.",
  "every history, every payment or call, every set of keys of the required size", "Existence of a continuation from every reachable state; access keys and receipts included.",
  "multisig/src/lib.rs:add_request", "multisig/src/lib.rs:confirm", "multisig/src/lib.rs:execute_request")

p("A staking pool votes as its owner says",
  "When a staking pool and the voting contract run together, the pool's votes travelling in any order: every vote that leaves the pool was ordered by the pool's owner and every accepted order makes exactly one vote; the voting contract lists the pool as a yes voter only if a yes vote of the pool was counted and no later no vote of the pool was counted while the voting was open; nobody else can make the pool vote. While the voting is open the owner can always make the pool's vote what they like, a yes needing stake in the current epoch.",
  "every history of both contracts, every order of delivery, lost votes, every caller, every validator set", "Unbounded interleavings of two contracts.",
  "staking-pool/src/lib.rs:vote", "voting/src/lib.rs:vote", "voting/src/lib.rs:ping", "voting/src/lib.rs:get_votes")

p("Staking pool: every call by the book",
  "A staking pool started with more than its guarantee fund answers every history of calls, rewards and epochs exactly like a book kept in exact arithmetic: rewards first (all of them behind the shares, the owner's fee as new shares at the price that includes the rest), buying rounds the shares and the buyer's price down and the pool's part up, selling rounds the shares and the seller's price up and the pool's part down, unstaked tokens wait four epochs, lines with nothing on them are erased. The pool refuses exactly the calls the book refuses, makes exactly the book's payments and stake actions, and its numbers are the book's to the last yoctoNEAR.",
  "every history, caller, deposit, amount, locked balance and epoch within the types of the protocol and 10^12 stake calls", "Refinement over unbounded histories and 128-bit numbers.",
  "staking-pool/src/lib.rs:stake", "staking-pool/src/lib.rs:unstake", "staking-pool/src/lib.rs:withdraw", "staking-pool/src/internal.rs:internal_ping", "staking-pool/src/internal.rs:internal_stake", "staking-pool/src/internal.rs:inner_unstake")

p("Lockup: every call by the book",
  "The lockup contract refuses exactly the calls that its agreement refuses: each method is open to one party (the owner, the foundation, the contract itself), nothing may be attached, pool operations need a selected pool with nothing outstanding, positive amounts and enough balance above the storage reserve, transfers need enabled transfers and liquid tokens, a termination needs the agreed schedule with something unvested, and so on for all 31 methods and callbacks. An accepted call changes exactly what the agreement says and asks the other account for exactly what it says, the answer going to the callback it says; whole histories go by the book with everything that can be observed; every view shows the amounts of the agreement.",
  "every call by anyone with any arguments at every reachable state; every history", "Refinement over all states, arguments, histories and 128-bit numbers.",
  "lockup/src/owner.rs", "lockup/src/owner_callbacks.rs", "lockup/src/foundation.rs", "lockup/src/foundation_callbacks.rs", "lockup/src/getters.rs", "lockup/src/internal.rs")

p("Multisig: every call by the book",
  "The multisig answers every history of calls exactly like a board on which requests hang: only the account itself calls, attaching nothing; a key with less than its limit of requests on the board puts up a request under the next id; a key confirms a hanging request once, and the confirmation that completes the quorum takes it down and makes the account do exactly what it asks, keys and settings only of the account itself and a setting only on its own; requests of a deleted key come down; a request older than 15 minutes can be taken down. It refuses exactly the calls the board refuses, schedules exactly the board's promises, and all views show the board.",
  "every history of calls by anyone with any key, at any time, every quorum", "Refinement over unbounded histories.",
  "multisig/src/lib.rs:add_request", "multisig/src/lib.rs:confirm", "multisig/src/lib.rs:delete_request", "multisig/src/lib.rs:execute_request", "multisig/src/lib.rs:get_request")

p("Multisig2: every call by the book",
  "The second multisig can be created exactly when at least as many members are given as confirmations required, and then answers every history of calls exactly like a board on which requests hang next to a list of members: only members call, attaching nothing; a member with less than the limit of requests on the board puts up a request under the next id; a member confirms a hanging request once, and the confirmation that completes the quorum takes it down and makes the account do exactly what it asks, its actions in order: keys, members and settings only of the account itself, a setting only on its own, a member leaves only if as many as the quorum remain, and the requests of one who left come down; a request older than 15 minutes can be taken down. It refuses exactly the calls the board refuses, schedules exactly the board's promises, and all views show the board.",
  "every history of calls by anyone with any key, at any time, every list of members and quorum", "Refinement over unbounded histories.",
  "multisig2/src/lib.rs:new", "multisig2/src/lib.rs:add_request", "multisig2/src/lib.rs:confirm", "multisig2/src/lib.rs:delete_request", "multisig2/src/lib.rs:execute_request", "multisig2/src/lib.rs:delete_member")

p("Collections in one storage do not disturb each other",
  "Every contract keeps its record and all its maps and sets in one flat key-value storage, told apart only by key prefixes. With the prefixes each contract chose, whatever a contract does with its collections in any order, no operation panics and every answer (value found, value replaced or removed, number of entries, listing with its order) is that of maps and sets of their own; the record read back is the one last saved; distinct keys have distinct encodings.",
  "every sequence of operations on all collections of each contract, every key and value", "Unbounded operation sequences; a clash between prefixes shows only for rare keys.",
  "staking-pool/src/lib.rs:new", "staking-pool-factory/src/lib.rs:new", "whitelist/src/lib.rs:new", "multisig/src/lib.rs:new", "multisig2/src/lib.rs:StorageKeys", "w-near/src/lib.rs:new")

p("A lockup owned by a multisig moves only as the quorum says",
  "When a lockup contract is owned by an account that a multisig (either version) guards, the calls that the lockup accepts from its owner are, in order and one for one, calls of requests that as many distinct keys or members as required confirmed; every payment the lockup makes, other than recovering the unvested tokens of a terminated vesting, was asked for by such a request with this receiver and amount, as often as it is made; and a quorum can, by its own transactions alone, make the lockup accept whatever it would accept from its owner now.",
  "every history of both contracts: transactions, calls by anybody, deliveries in any order, time", "The quorum rule of one contract and the owner check of another must compose over all interleavings.",
  "multisig/src/lib.rs:execute_request", "multisig2/src/lib.rs:execute_request", "lockup/src/owner.rs:transfer", "lockup/src/internal.rs:assert_owner")

p("The gas passed between the contracts suffices",
  "Every call that one of the contracts makes to another (lockup to staking pool, whitelist and voting; pool factory to a new pool, to itself and to the whitelist; lockup factory to a new lockup and to itself; pool to voting) carries at least the base gas of an execution beyond whatever gas the receiver attaches to what it sends on, whatever its state; and what a call attaches in total stays within the documented amounts and the limit of a transaction.",
  "every accepted call of every contract, every state of caller and receiver", "Which promises are sent depends on the state of two contracts; the simulator tests run few combinations.",
  "lockup/src/gas.rs", "staking-pool/src/lib.rs:ON_STAKE_ACTION_GAS", "staking-pool/src/lib.rs:VOTE_GAS", "staking-pool-factory/src/lib.rs:gas", "lockup-factory/src/lib.rs:gas")

p("What a call writes to storage is what the next call reads",
  "The bytes a contract writes decode to exactly the value it had: for the lockup, in every state it can reach; for the staking pool, voting, whitelist, both multisigs, the factories and wNEAR, for every value of the types they store, including requests with any actions, confirmations, members and accounts. Truncated bytes, bytes left over and unknown variants are refused: only what some value is written as is read.",
  "every history of the lockup; every value of every persisted type", "The tests keep the contract in memory between calls; values and nesting are unbounded.",
  "lockup/src/types.rs", "lockup/src/lib.rs:LockupContract", "staking-pool/src/lib.rs:StakingContract", "voting/src/lib.rs:VotingContract", "multisig/src/lib.rs:MultiSigRequestAction", "multisig2/src/lib.rs:MultiSigRequestAction", "w-near/src/lib.rs:Contract")
p("Lockup: the storage reserve really covers the storage",
  "The 3.5 NEAR the contract keeps back are at least what the protocol charges for the account with the shipped code and its state, in every state it can reach, even with 36 full access keys; and an account that starts with them never has less.",
  "every history of the lockup", "The size of the state depends on the history (selected pool, termination, names of any length); the tests never look at it.",
  "lockup/src/lib.rs:MIN_BALANCE_FOR_STORAGE", "lockup/src/internal.rs:get_account_balance", "lockup/src/types.rs", "lockup/res/lockup_contract.wasm")
p("Lockup: a hidden vesting schedule can only be revealed as the one committed to",
  "If the vesting was given as the hash of a schedule with a salt, every termination accepted at any later time was made with exactly that schedule and salt, unless the caller found other bytes with the same SHA-256; in particular no two schedules and salts are hashed from the same bytes.",
  "every hash function, every schedule and salt, every history", "Needs all pairs of schedules and salts.",
  "lockup/src/types.rs:VestingScheduleWithSalt", "lockup/src/foundation.rs:terminate_vesting", "lockup/src/internal.rs:assert_vesting")

p("Staking pool: storage never stops a delegator from taking their tokens out",
  "A call the pool grants, in particular a withdrawal, is not refused by the runtime because the account holds fewer tokens than its storage costs. Charging for storage changes nothing else: the pool then does what it would have done without the refused calls.",
  "every history, any number of accounts, names and staking keys of every length the protocol allows", "The storage grows with the number of accounts ever seen; no test makes thousands of them or charges for storage.",
  "staking-pool/src/internal.rs:internal_save_account", "staking-pool/src/internal.rs:internal_deposit", "staking-pool/src/lib.rs:StakingContract", "staking-pool-factory/src/lib.rs:MIN_ATTACHED_BALANCE", "staking-pool/res/staking_pool.wasm")

p("A lockup's foundation that is a multisig acts only as its quorum decides",
  "If the account that may terminate the vesting of a lockup is guarded by the multisig (or multisig2) contract, every accepted call of a method of the foundation was asked for by a request that as many different keys or members as required had confirmed; the vesting is being terminated only if such a request asked for it; and unvested tokens are paid only to an account such a request named; and a quorum can, by its own transactions alone, make the lockup accept whatever it would accept from the foundation now.",
  "every history of both accounts together: transactions with any of the multisig's keys, deliveries in any order, calls by anybody, messages, time",
  "Needs both contracts and every interleaving of their receipts; no test runs them together.",
  "lockup/src/foundation.rs:terminate_vesting",
  "lockup/src/foundation.rs:termination_withdraw",
  "lockup/src/foundation_callbacks.rs:on_withdraw_unvested_amount",
  "multisig/src/lib.rs:confirm",
  "multisig2/src/lib.rs:confirm")

p("A staking pool owned by a multisig is run only as its quorum decides, and always can be",
  "If a pool's owner is an account guarded by the multisig (or multisig2) contract, the owner's accepted calls are, in the order they were executed, those of batches that left the account, each batch executed at most once and each asked for by a request that as many different keys or members as required had confirmed. So the reward fee, the staking key, whether the pool stakes, its votes and payments to the owner change or happen only as such a request asked. And whatever the pool would accept from its owner at some moment, a quorum of working keys or members can have executed by their own transactions.",
  "every history of both accounts together: transactions with any of the keys, receipts delivered in any order or late, calls by delegators and strangers, rewards, epochs, any locked balance",
  "Needs two contracts and every interleaving of their receipts; no test runs them together.",
  "staking-pool/src/lib.rs:assert_owner",
  "staking-pool/src/lib.rs:update_reward_fee_fraction",
  "staking-pool/src/lib.rs:pause_staking",
  "staking-pool/src/lib.rs:vote",
  "multisig/src/lib.rs:confirm",
  "multisig2/src/lib.rs:confirm")

p("A whitelist whose foundation is a multisig changes only as its quorum decides",
  "If the whitelist's foundation is an account guarded by the multisig (or multisig2) contract, every call that changes the lists was asked for by a request that as many different keys or members as required had confirmed, or lists a pool and comes from a factory whose listing such a request asked for. And what the whitelist would accept from the foundation, a quorum of working keys or members can have executed.",
  "every history of both accounts together: transactions with any of the keys, receipts delivered in any order or late, calls of the whitelist by anybody",
  "Needs two contracts and every interleaving of their receipts; no test runs them together.",
  "whitelist/src/lib.rs:assert_called_by_foundation",
  "whitelist/src/lib.rs:add_staking_pool",
  "whitelist/src/lib.rs:add_factory",
  "multisig/src/lib.rs:confirm",
  "multisig2/src/lib.rs:confirm")

p("Every message between the contracts is read as what was meant",
  "Whatever account IDs, keys, method names, notes and amounts are involved, the JSON text that one of the contracts writes for another or for itself is read by the receiver, under the method it names, as exactly the call that was meant: the factories' initialisation of pools and lockups and their callbacks, the multisig factory's initialisation (unless the new multisig refuses it), the pool's votes and callback, every call of the lockup to its pool, the whitelist and the voting contract and every callback of it, and wNEAR's transfer calls; and the answers that come back (balances, listings, poll results, unused tokens) are read as what was answered. The texts that are read at all are exactly those of the grammar of JSON, each as what it spells, and an amount is read from exactly its decimal numerals.",
  "every text that made the caller act, every state, every value of the types",
  "The unit tests call the methods in memory and never serialise; the simulator tests use a few fixed names and amounts. Escaping, number ranges (a u128 does not fit a JSON number), names of fields and methods must agree between separately compiled contracts for every value.",
  "lockup/src/lib.rs:ext_staking_pool",
  "lockup/src/lib.rs:ext_self_owner",
  "lockup/src/lib.rs:ext_self_foundation",
  "lockup/src/types.rs",
  "staking-pool-factory/src/lib.rs:StakingPoolArgs",
  "staking-pool-factory/src/lib.rs:create_staking_pool",
  "lockup-factory/src/lib.rs:LockupArgs",
  "lockup-factory/src/types.rs",
  "multisig-factory/src/lib.rs:create",
  "staking-pool/src/lib.rs:ext_voting",
  "voting/src/lib.rs:get_result")

p("Whatever fits the types can be asked for, and a quorum can ask for it",
  "Every contract (staking pool, whitelist, voting, the three factories, lockup, both multisigs, wNEAR) speaks its documented interface: whatever JSON text gives the arguments of a request, in any order, with any white space and further fields, optional ones left out or null, is read by the method of that name as that request, provided its numbers and account IDs fit the types; and no other method and no misfit is ever read as it. A request that get_request shows can be put back as the argument of add_request unchanged. So a quorum of a multisig can, with texts its contract reads, make its account send any request it could execute, and make a lockup, pool or whitelist that the account governs do whatever it would accept from that account.",
  "every call, every request with any actions, every history of the accounts",
  "A method that no text can reach, or a request that cannot be written, shows only for the values concerned; the tests build requests in memory.",
  "multisig/src/lib.rs:MultiSigRequest",
  "multisig/src/lib.rs:MultiSigRequestAction",
  "multisig2/src/lib.rs:MultiSigRequest",
  "multisig2/src/lib.rs:MultisigMember",
  "lockup/src/owner.rs",
  "lockup/src/foundation.rs",
  "staking-pool/src/lib.rs",
  "whitelist/src/lib.rs")

p("Lockup: what a call is answered tells what has happened",
  "Every call of a lockup method is answered exactly once, when nothing of it but tokens is in flight any more, and the answer is true: `true` for a deposit, withdrawal, stake or unstake means that the pool executed it and the lockup's record was changed accordingly, `false` that the pool did not and nothing was recorded; `true` for select_staking_pool means that the whitelist confirmed the pool and it is selected now; `true` for check_transfers_vote means that the vote has passed and transfers are enabled, `false` that it has not; for the termination's steps the answer tells which stage was reached; a failed transaction has changed nothing in the lockup at the step where it fails. Until then exactly one message leads on to the answer, after at most two requests to the pool.",
  "all histories: any calls by anyone, any outcomes of every request, any order of delivery, any interleaving of several calls",
  "The unit tests call the callbacks by hand with a chosen promise result and mostly ignore the value; the answer of a call arrives several receipts later, among those of other calls, and wallets act on it.",
  "lockup/src/owner.rs",
  "lockup/src/owner_callbacks.rs",
  "lockup/src/foundation.rs:termination_prepare_to_withdraw",
  "lockup/src/foundation.rs:termination_withdraw",
  "lockup/src/foundation_callbacks.rs")

p("Views answer, in JSON, what the contract's books say",
  "Whoever asks a view of any of the contracts, with any JSON text that gives its arguments, gets the JSON text of what the contract's book or history says: every account, balance and page of a staking pool; every amount, stage and schedule of a lockup at any time and balance; the members, requests, confirmations and counts of both multisigs; the votes, their sum and the result of the vote; the whitelist's two lists; the supply, balances, storage deposits and metadata of wrapped NEAR; what the factories count and ask for. Amounts are strings of decimal digits, missing things are null, names of fields and variants are as documented. A view fails exactly where it is documented or found to fail: for an unknown request, an invalid account id, a page beyond the 64-bit numbers, a schedule that leaves more unvested than is locked. Nothing else is a view.",
  "all histories of each contract, all views, all arguments and all JSON texts of them (any order of fields, white space, escapes, further fields)",
  "Unit tests call the views as Rust functions on a few states; explorers, wallets and the other contracts read JSON, whose field names, string amounts and nulls come from derive attributes that no test exercises.",
  "staking-pool/src/lib.rs:get_account",
  "staking-pool/src/lib.rs:get_accounts",
  "lockup/src/getters.rs",
  "lockup/src/types.rs:VestingInformation",
  "multisig/src/lib.rs:get_request",
  "multisig2/src/lib.rs:get_confirmations",
  "voting/src/lib.rs:get_votes",
  "whitelist/src/lib.rs:is_whitelisted",
  "w-near/src/lib.rs:ft_metadata",
  "staking-pool-factory/src/lib.rs:get_number_of_staking_pools_created",
  "lockup-factory/src/lib.rs:get_min_attached_balance")

p("Every call of a factory is answered once, and the answer tells what became of the deposit",
  "Number the calls of a factory in the order of their arrival. At any moment, each call either has exactly one answer and nothing in flight is on its behalf, or it has none and exactly one message in flight is on its behalf. A refused call fails at once and changes nothing. Staking pool factory: an accepted call ends in one of four ways: the pool could not be created, the caller got exactly the attached deposit back and the answer is false; or the pool was created at <name>.<factory> with exactly the attached deposit, nothing was sent back, and the answer is the whitelist's: true if this call put the pool on the whitelist, false if it was there already, a failure if the request ran out of gas or the factory is not among the whitelisted factories (then the whitelist is unchanged). So true means created and whitelisted, and false alone does not mean that the deposit came back: both stories of false happen. Lockup factory: true exactly if the lockup of the owner was created with exactly the attached deposit, false exactly if it was not and the caller got exactly that deposit back. Multisig factory: the call succeeds exactly if the multisig was created with exactly the attached deposit; if it fails after it was accepted, the deposit is the factory's.",
  "every sequence of calls of the factory by anyone with any arguments and deposits, of executions of creations, callbacks and whitelist requests in any order, with or without enough gas, of other account creations, of incoming transfers and of calls of the whitelist by anyone; every call in it",
  "whether an answer belongs to the right call and tells the truth depends on how creations, callbacks and whitelist requests of many calls interleave, and on what others did to the whitelist and to the account names in between",
  "staking-pool-factory/src/lib.rs: create_staking_pool, on_staking_pool_create",
  "staking-pool-factory/src/utils.rs: is_promise_success",
  "lockup-factory/src/lib.rs: create, on_lockup_create",
  "multisig-factory/src/lib.rs: create",
  "whitelist/src/lib.rs: add_staking_pool")

p("The log of a staking pool tells its books",
  "Every line a staking pool logs is one of seven sentences and can be read in one way only: a deposit, a withdrawal, a stake, an unstake, the totals, the rewards of an epoch, the owner's fee in shares. An accepted call first logs the rewards of the current epoch, at most once per epoch, and then what it did, naming the caller and the deposit; a refused call logs nothing. Somebody who reads nothing but the log, from the first line, finds each line consistent with the lines before it, and at any moment knows exactly the unstaked balance and the shares of every account, what each account paid in and was paid so far, the total staked balance and the total number of shares. Logging changes the outcome of no call.",
  "every initial pool, every sequence of calls by callers with valid account names with any arguments and deposits, of incoming rewards and of epochs; every line and every account",
  "explorers and wallets rebuild balances from the log; that no history exists in which a line is missing, stale or ambiguous can only be settled for all histories",
  "staking-pool/src/internal.rs: internal_deposit, internal_withdraw, internal_stake, inner_unstake, internal_ping",
  "staking-pool/src/lib.rs: ping, deposit, deposit_and_stake, withdraw, stake, unstake")

p("The log of a lockup tells its books",
  "Whatever happens, every line a lockup contract logs is one of its documented sentences, can be read in one way only, and fits the lines before it. An accepted call that sends a request logs one line announcing that very request, with its amount and its receiver; a callback logs what it was told: success or failure of that very request. Somebody who reads nothing but the log, in order, knows the deposit the contract has on record, whether an operation with the staking pool is under way, whether and since when transfers are enabled, how far a termination of the vesting has got, how much is still to be taken and how much the foundation has taken, whether there still is a foundation, and how much the contract has sent to whom. Refused calls log nothing that stays, and logging changes nothing else.",
  "every initial state accepted by new, every history of calls by anyone, executions and failures of requests in any order, callbacks, income, rewards and passing time; every line and every account",
  "the log is what explorers and the foundation's tooling show; a wrong amount, a swapped success and failure or a missing line only shows in a particular interleaving, and tests compare no logs",
  "lockup/src/owner.rs",
  "lockup/src/owner_callbacks.rs",
  "lockup/src/foundation.rs",
  "lockup/src/foundation_callbacks.rs")

p("The logs of the factories and of the wrapped token tell what they did",
  "Whatever happens, every line the two account-creating factories and the wrapped token log themselves can be read in one way only. The staking pools said to be created are, in order, exactly those sent to the whitelist; the deposits said to be returned are, in order, exactly the tokens sent back and their receivers; every creation asked for is made, or said to have failed under its own name and deposit, or still in flight; every account made is said to be created, or its callback is due. An accepted near_deposit logs one line with what the caller got, an accepted near_withdraw one with what the caller gave up, and nothing else logs such a line; the total supply is the sum said to be wrapped less the sum said to be unwrapped less what forced unregistrations and settlements burnt.",
  "every initial state, every history of calls by anyone, executions of creations with or without success, callbacks, transfers, settlements and income in any order; every line",
  "a line with the wrong amount, account or outcome only shows in a particular interleaving of creations and callbacks, and tests compare no logs",
  "staking-pool-factory/src/lib.rs: on_staking_pool_create",
  "lockup-factory/src/lib.rs: on_lockup_create",
  "w-near/src/w_near.rs: near_deposit, near_withdraw")

p("Voting: more than two thirds of the stake can always end the poll, and a third can keep it open",
  "If within one epoch every member of a group of validators holding more than two thirds of the total stake calls vote(true) and none of them takes it back, the poll has a result afterwards, whatever anybody else calls before, between and after. Votes stand over epochs: as soon as those who stand by a yes vote hold more than two thirds of the stake of the current epoch, a ping by anybody sets the result. And as long as a group that never votes yes holds at least a third of the stake at every moment, there is no result.",
  "every history of calls by anyone and of epochs with any validators, every group of accounts, every interleaving of their votes with other people's calls",
  "that nobody can obstruct a majority, or get past a third, is a statement about all interleavings of votes, withdrawals of votes and changes of the validators",
  "voting/src/lib.rs: ping, vote, check_result")

p("Nobody gains more from a staking pool than its rewards",
  "Between any two moments an account's total balance plus what it was paid exceeds its former total balance plus its deposits by at most the tokens that reached the pool from outside, plus one yoctoNEAR for every accepted stake or unstake call. Splitting over many accounts adds at most one yoctoNEAR per further account. Within an epoch, accounts gain only such roundings once the rewards are distributed, and accounts with nothing staked (other than the owner) gain only such roundings even before: who joins has no part in the rewards of earlier epochs.",
  "all initial pools, all histories of calls, incomes and epochs split at any point, all accounts and all groups of accounts",
  "Extracting value takes an arbitrary interleaving of calls of many accounts; tests check single calls with chosen numbers.",
  "staking-pool/src/internal.rs: internal_ping, internal_stake, inner_unstake",
  "staking-pool/src/lib.rs: deposit_and_stake, withdraw")

p("Multisig: those without whom there is no quorum can stop everything",
  "If the keys (members) that are willing to confirm are fewer than the required confirmations, and the confirmations active requests already have are theirs, then nothing anybody calls, in any number and order, gets a request executed, and the members, the quorum and the limits stay as they are until another key (member) confirms.",
  "all histories before and after, all sets of keys or members, both multisig contracts",
  "Refusing has to work against every continuation; tests try a handful of calls.",
  "multisig/src/lib.rs: confirm, add_request_and_confirm, execute_request",
  "multisig2/src/lib.rs: confirm, add_request_and_confirm, assert_valid_request, current_member")

p("All contracts together: two thirds of the stake can enable a lockup's transfers, and a third can prevent it",
  "In a deployment of the repository's own contracts, if within one epoch validators with more than two thirds of the stake vote yes and do not take it back, and the owner of a lockup that waits for this vote then asks for the result while no termination is in progress, transfers are enabled with the result as timestamp as soon as the question is answered, whatever anybody else does and in whatever order messages arrive; nobody but the owner is needed for that, even while an operation with the pool is going on; and if validators with at least a third of the stake never vote yes, transfers stay disabled whatever anybody does.",
  "all deployments, all histories of the lockup, whitelist, voting contract, factory and pools before, between and after the votes and the question, all groups of validators, all orders of messages",
  "a test plays one order of votes, messages and calls; that no order and no other participant can spoil or force the outcome needs all of them",
  "lockup/src/owner.rs: check_transfers_vote",
  "lockup/src/owner_callbacks.rs: on_get_result_from_transfer_poll",
  "voting/src/lib.rs: vote, ping, check_result, get_result")

p("Those without whom there is no quorum can silence a multisig's account",
  "Take an account guarded by a multisig, with nothing it sent on its way. If the keys (for the second multisig, the members) that go on confirming are fewer than are required, and no one else has confirmed a request that is open, then nothing ever leaves the account: no transfer, no call, no key added or deleted, no change of settings, whatever transactions are sent and in whatever order they are delivered. If the account owns a staking pool, the pool's fee, staking key and pausing stay as they are, it casts no vote, and it sends its owner nothing. If the account is the foundation of a whitelist, what is listed stays listed, no factory is added, and pools are added only by factories that are listed already. If it owns a lockup, the lockup accepts no call of its owner and pays nobody but the foundation.",
  "every configuration of either multisig and every set of refusing members, every earlier history, every later sequence of transactions, deliveries and calls by others; for the pool, the whitelist and the lockup, every state of it and everything that happens to it besides",
  "A test shows that one transfer is not made with one confirmation; this is about every future of the account, with batches to itself that could change its keys or its quorum, and about another contract that the account governs.",
  "multisig/src/lib.rs: add_request, add_request_and_confirm, delete_request, confirm, execute_request, assert_valid_request",
  "multisig2/src/lib.rs: add_request, add_request_and_confirm, confirm, execute_request, assert_valid_request",
  "staking-pool/src/owner.rs: update_staking_key, update_reward_fee_fraction, vote, pause_staking, resume_staking")

p("Lockup: later terms never unlock sooner, and more tokens never unlock less",
  "Of two lockups with the same balance, the one whose terms are no sooner in every respect (lockup duration, lockup timestamp, the time transfers were enabled, release duration, the start, cliff and end of a public vesting schedule; no lockup timestamp, release or vesting at all counting as the soonest) reports at every time at least as large a locked amount, as long as the end of its release is a 64-bit time. With the same terms, the lockup that was created with more tokens has at every time no less locked and no less unlocked.",
  "every pair of accepted initialisations, every pair of later states before a termination, every time",
  "It compares two runs for all terms and all times, through two linear schedules that are rounded and through saturating additions; a test compares a few numbers. Past 64-bit times it is false, which tests with usual dates do not show.",
  "lockup/src/lib.rs: new",
  "lockup/src/getters.rs: get_locked_amount, get_unvested_amount",
  "lockup/src/types.rs: LockupInformation, VestingSchedule")

p("A lower reward fee, or a larger reward, is never worse for delegators",
  "After any history, consider the owner of a staking pool setting one reward fee fraction or a higher one, the same calls following in that epoch (none of them setting the fee), the same tokens then arriving, the same epochs passing and somebody calling ping. The total staked balance is the same with either fee, the staked balance of every account but the owner's is at least as large with the lower fee, and that of the owner at most as large. This holds exactly, whatever the rounding of the fee, of the shares bought with it and of the balances. If instead the fee is the same but more tokens arrive before the ping, the total staked balance is no less and no account but the owner's has less staked, up to the price of one share and one yoctoNEAR.",
  "every initialised pool, every history of calls, incoming tokens and epochs before the fee is set, every two valid fee fractions, every two amounts of incoming tokens, every sequence of incoming tokens and epochs after it, every account",
  "Three roundings (the fee, the owner's new shares, everybody's balance) act in different directions, so that monotonicity could fail by a yoctoNEAR for particular totals; tests compare a few round numbers only.",
  "staking-pool/src/internal.rs: internal_ping, num_shares_from_staked_amount_rounded_down, staked_amount_from_num_shares_rounded_down",
  "staking-pool/src/lib.rs: update_reward_fee_fraction, RewardFeeFraction::multiply, ping, get_account_staked_balance")

p("Staking pool: a change of the reward fee is never retroactive",
  "In any state of a staking pool, an accepted change of the reward fee creates the same promises as an accepted ping by anybody would. Whatever happens afterwards in the same epoch, every call is accepted or refused alike with the same promises, every view but that of the fee answers the same, and the account holds the same tokens, as if the pool had only been pinged. So the rewards of earlier epochs are distributed at the old fee, and the new one affects nobody before the next epoch.",
  "every state of the pool, every new fee, all callers, every sequence of calls and incoming tokens within the epoch",
  "The order of distributing and of setting the fee matters only when a reward is pending, and that no other code path reads the fee must hold for every later sequence of calls.",
  "staking-pool/src/lib.rs: update_reward_fee_fraction, ping, deposit, deposit_and_stake, withdraw, withdraw_all, stake, stake_all, unstake, unstake_all, update_staking_key, vote, pause_staking, resume_staking, on_stake_action",
  "staking-pool/src/internal.rs: internal_ping")

p("Staking pool: a ping just before a call makes no difference",
  "In any state of a staking pool, suppose somebody pings it just before a call, or does not. Then the call, unless it is the owner's vote or the callback of a stake action, is accepted in both cases or in none; if accepted, the pool ends in the same state, has paid the same amounts to the same receivers, and the last stake action it asked for is the same. So nobody gains or loses by distributing the rewards in front of another's call.",
  "every state of the pool, every ping that is accepted, every caller, deposit, locked part and method, as long as all tokens together are a 128-bit number",
  "It compares two executions from every state, for every method; a method that forgot to distribute first, or restaked at the wrong moment, would differ only when a reward is pending.",
  "staking-pool/src/lib.rs: ping, deposit, deposit_and_stake, withdraw, withdraw_all, stake, stake_all, unstake, unstake_all, update_staking_key, update_reward_fee_fraction, pause_staking, resume_staking",
  "staking-pool/src/internal.rs: internal_ping, internal_restake")

p("Staking pool: deposits and withdrawals in parts add up",
  "Two deposits of an account one after the other leave exactly the state, and create exactly the promises, that one deposit of the sum does. Two accepted withdrawals of an account one after the other leave exactly the state that one withdrawal of the sum does, which would have been accepted too; each pays the account what was asked for, and the last stake action is the same.",
  "every state for deposits, every state after any history for withdrawals, every account, all amounts (the first deposit positive), as long as all tokens together are a 128-bit number",
  "It compares two executions from every state, including those in which rewards are pending, the account is new, or its record disappears with the last withdrawal.",
  "staking-pool/src/lib.rs: deposit, withdraw",
  "staking-pool/src/internal.rs: internal_deposit, internal_withdraw, internal_ping, internal_save_account")

out = sys.argv[1] if len(sys.argv) > 1 else "properties.jsonl"
with open(out, "w") as f:
    for e in P:
        f.write(json.dumps(e) + "\n")
print(len(P))
