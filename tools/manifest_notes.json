{
 "C01": {
  "note": "Every method of the pool, every caller, every arrival of rewards; the ratio is compared by cross multiplication."
 },
 "C04": {
  "note": "The bound on the total token supply (2^128) and the count of stake/unstake calls are explicit in the statement."
 },
 "C15": {
  "note": "Conditional on the limits named in the property: fewer than 10^12 stake/unstake calls, supply below 2^128."
 },
 "C20": {
  "note": "Both halves: the views never fail for a pool started with more than 10^12, and fail forever for a pool started with exactly 10^12 (theorem C20_minimal_pool_views_fail, for every such pool: a defect of the code)."
 },
 "C32": {
  "note": "The request and its confirmation set exist together; the three panics only a mismatch could raise are unreachable."
 },
 "C36": {
  "status": "partial",
  "note": "refuted: defect of the code. The full property is false: the witness executes a 2-of-3 request with the confirmation of a key deleted before. What holds is that the requests created by the deleted key are dropped."
 },
 "C37": {
  "status": "partial",
  "note": "refuted: defect of the code. Lowering num_confirmations leaves requests active that already have enough confirmations (witness). Proved: it cannot happen as long as num_confirmations was never higher than it is."
 },
 "C41": {
  "status": "partial",
  "note": "refuted: defect of the code. new counts duplicate members and SetNumConfirmations is unchecked (two witnesses). Proved: with different initial members, and no settings change above the number of members, the quorum stays reachable through every removal; and a quorum above the members (and those who confirmed an active request) blocks every execution forever."
 },
 "C42": {
  "status": "partial",
  "note": "refuted: defect of the code. Confirmations of a removed member still count (witness). Proved: the requests the removed member created are dropped."
 },
 "C43": {
  "status": "partial",
  "note": "refuted: defect of the code. MULTISIG_METHOD_NAMES lists add_and_confirm_request, the method is add_request_and_confirm (witness). Proved: every key member gets a key for the other three methods."
 },
 "C44": {
  "note": "Over all byte strings with JSON escaping, so also for ids that are not valid account ids."
 },
 "C45": {
  "note": "For every well-formed state; every reachable state is well formed when public schedules are sane and revealed private ones are sane and covered by the lockup."
 },
 "C47": {
  "note": "The staking pool is any pool that keeps the stated guarantee (pool_keeps); LockupPool shows it for the staking pool of this repository. The demand on private schedules is the documented one; C47_private_schedule_must_be_covered shows it is needed."
 },
 "C53": {
  "note": "The storage reserve of 3.5 NEAR is never paid out, so the amount received is the unvested amount up to that reserve. The pool keeps staked and unstaked balances apart (all_keep_apart), answers views, and allows unstaking and withdrawing; the delay of withdrawals is part of waiting for it to allow them."
 },
 "C58": {
  "status": "partial",
  "note": "refuted: defect of the code. VestingSchedule::assert_valid is never called: initialisation accepts schedules whose unvested amount exceeds the lockup amount or is undefined (two witnesses, and a history in which the foundation takes more than the lockup amount). Proved: with a valid schedule the property holds."
 },
 "C59": {
  "status": "partial",
  "note": "refuted: defect of the code. When a view of the pool fails the callback panics and the contract stays busy for ever (proved for every continuation). Proved: if views answer, every operation ends after at most four deliveries, whatever the outcome of the other calls."
 },
 "C61": {
  "note": "The base cost of a method is taken to be the 25 Tgas the documentation uses; gas actually burnt is not modelled."
 },
 "C68": {
  "status": "partial",
  "note": "refuted: defect of the code. create has no callback, so the deposit of a failed creation stays with the factory (witness: more confirmations than members) and no caller is ever refunded. Proved: no token is lost (created, in flight or on the factory), multisigs are created only as asked, and the conditions under which a creation succeeds."
 },
 "C72": {
  "note": "base64 0.13 decoding is modelled concretely (standard alphabet, optional padding, trailing bits refused), with its round trip proved; a function from keys to values models the storage."
 },
 "C69": {
  "note": "The token of near-contract-standards 3.1.0 is not in the repository; it is modelled from its published source. Storage price and record size (125 bytes, 10^19 per byte) as on mainnet. The contract's account is assumed not to call itself except through the callback."
 },
 "C70": {
  "note": "The token of near-contract-standards 3.1.0 is not in the repository; it is modelled from its published source. Storage price and record size (125 bytes, 10^19 per byte) as on mainnet. The contract's account is assumed not to call itself except through the callback."
 },
 "C71": {
  "note": "The token of near-contract-standards 3.1.0 is not in the repository; it is modelled from its published source. Storage price and record size (125 bytes, 10^19 per byte) as on mainnet. The contract's account is assumed not to call itself except through the callback."
 },
 "C76": {
  "note": "The token of near-contract-standards 3.1.0 is not in the repository; it is modelled from its published source. Storage price and record size (125 bytes, 10^19 per byte) as on mainnet. The contract's account is assumed not to call itself except through the callback."
 },
 "C77": {
  "note": "The token of near-contract-standards 3.1.0 is not in the repository; it is modelled from its published source. Storage price and record size (125 bytes, 10^19 per byte) as on mainnet. The contract's account is assumed not to call itself except through the callback."
 },
 "C78": {
  "note": "The token of near-contract-standards 3.1.0 is not in the repository; it is modelled from its published source. Storage price and record size (125 bytes, 10^19 per byte) as on mainnet. The contract's account is assumed not to call itself except through the callback."
 },
 "C79": {
  "note": "The token of near-contract-standards 3.1.0 is not in the repository; it is modelled from its published source. Storage price and record size (125 bytes, 10^19 per byte) as on mainnet. The contract's account is assumed not to call itself except through the callback."
 },
 "C95": {
  "note": "Limits in the statement: account total + 1 below 2^128, epoch + 4 below 2^64, at most 10^12 accepted stake/unstake calls, more than 10^12 yoctoNEAR at initialisation."
 },
 "C96": {
  "note": "Limits in the statement: account balance plus recorded deposit below 2^128, times of a revealed schedule below 2^64; states well formed (all reachable ones, C45)."
 },
 "C100": {
  "note": "Conditions in the statement: the owner's account starts with keys that can only call the multisig, and no executed request deploys code or adds another kind of key to it (as in C90, C92). What the account sends to the lockup is executed there, all or nothing, at the moment it leaves; the delay before that is in the delivery of the receipt. Gas is not counted."
 },
 "C105": {
  "status": "partial",
  "note": "refuted: defect of the code. Nobody pays for the 198 bytes plus twice the name that a deposit's record takes, so dust deposits can use up what the pool has for storage and a granted withdrawal is refused by the runtime (witness: a hundred deposits of 1 yoctoNEAR on a pool of 2.7 NEAR). Proved: the exact size; no refusal while the accounts are as few as the initial tokens pay for (8417 for the 30 NEAR of the factory); none either while what the pool still owes covers the cost; charging for storage only removes calls. The size of the shipped code and the storage prices are constants."
 },
 "C113": {
  "note": "The doc comment of on_staking_pool_create says that it refunds and returns false otherwise; C113_pool_false_has_two_stories shows that a caller cannot conclude a refund from false alone."
 }
}