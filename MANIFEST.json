{
 "claims": [
  {
   "property": "C01",
   "status": "proved",
   "theorems": [
    "C01_price_never_decreases"
   ],
   "note": "Every method of the pool, every caller, every arrival of rewards; the ratio is compared by cross multiplication."
  },
  {
   "property": "C02",
   "status": "proved",
   "theorems": [
    "C02_price_at_least_one"
   ],
   "note": ""
  },
  {
   "property": "C03",
   "status": "proved",
   "theorems": [
    "C03_shares_conserved"
   ],
   "note": ""
  },
  {
   "property": "C04",
   "status": "proved",
   "theorems": [
    "C04_solvency"
   ],
   "note": "The bound on the total token supply (2^128) and the count of stake/unstake calls are explicit in the statement."
  },
  {
   "property": "C05",
   "status": "proved",
   "theorems": [
    "C05_delegator_never_loses"
   ],
   "note": ""
  },
  {
   "property": "C06",
   "status": "proved",
   "theorems": [
    "C06_staked_amount_can_be_unstaked"
   ],
   "note": ""
  },
  {
   "property": "C07",
   "status": "proved",
   "theorems": [
    "C07_unstake_accepted_iff",
    "C07_unstake_credit"
   ],
   "note": ""
  },
  {
   "property": "C08",
   "status": "proved",
   "theorems": [
    "C08_unstake_all"
   ],
   "note": ""
  },
  {
   "property": "C09",
   "status": "proved",
   "theorems": [
    "C09_non_interference"
   ],
   "note": ""
  },
  {
   "property": "C10",
   "status": "proved",
   "theorems": [
    "C10_withdraw_after_delay",
    "C10_withdraw_accepted_iff"
   ],
   "note": ""
  },
  {
   "property": "C11",
   "status": "proved",
   "theorems": [
    "C11_only_withdrawals_pay"
   ],
   "note": ""
  },
  {
   "property": "C12",
   "status": "proved",
   "theorems": [
    "C12_rewards_once_per_epoch",
    "C12_reward_distribution",
    "C12_only_income_is_reward",
    "C12_rewards_first"
   ],
   "note": ""
  },
  {
   "property": "C13",
   "status": "proved",
   "theorems": [
    "C13_owner_only"
   ],
   "note": ""
  },
  {
   "property": "C14",
   "status": "proved",
   "theorems": [
    "C14_stake_action_amounts",
    "C14_restakes"
   ],
   "note": ""
  },
  {
   "property": "C15",
   "status": "proved",
   "theorems": [
    "C15_delegator_can_exit"
   ],
   "note": "Conditional on the limits named in the property: fewer than 10^12 stake/unstake calls, supply below 2^128."
  },
  {
   "property": "C16",
   "status": "proved",
   "theorems": [
    "C16_pagination"
   ],
   "note": ""
  },
  {
   "property": "C17",
   "status": "proved",
   "theorems": [
    "C17_fee_is_a_fraction"
   ],
   "note": ""
  },
  {
   "property": "C18",
   "status": "proved",
   "theorems": [
    "C18_stake_action_callback"
   ],
   "note": ""
  },
  {
   "property": "C19",
   "status": "proved",
   "theorems": [
    "C19_initial_stake_stays"
   ],
   "note": ""
  },
  {
   "property": "C20",
   "status": "proved",
   "theorems": [
    "C20_views_never_fail",
    "C20_minimal_pool_views_fail"
   ],
   "note": "Both halves: the views never fail for a pool started with more than 10^12, and fail forever for a pool started with exactly 10^12 (theorem C20_minimal_pool_views_fail, for every such pool: a defect of the code)."
  },
  {
   "property": "C21",
   "status": "proved",
   "theorems": [
    "C21_tally_is_sum"
   ],
   "note": ""
  },
  {
   "property": "C22",
   "status": "proved",
   "theorems": [
    "C22_result_iff_two_thirds",
    "C22_open_means_not_passed",
    "C22_accepted_iff"
   ],
   "note": ""
  },
  {
   "property": "C23",
   "status": "proved",
   "theorems": [
    "C23_result_final"
   ],
   "note": ""
  },
  {
   "property": "C24",
   "status": "proved",
   "theorems": [
    "C24_votes_are_current_stakes",
    "C24_only_own_vote"
   ],
   "note": ""
  },
  {
   "property": "C25",
   "status": "proved",
   "theorems": [
    "C25_order_irrelevant"
   ],
   "note": ""
  },
  {
   "property": "C26",
   "status": "proved",
   "theorems": [
    "C26_answers_follow_history",
    "C26_accepted_iff_authorised",
    "C26_returned_value"
   ],
   "note": ""
  },
  {
   "property": "C27",
   "status": "proved",
   "theorems": [
    "C27_storage_keys_distinct",
    "C27_whitelists_independent"
   ],
   "note": ""
  },
  {
   "property": "C28",
   "status": "proved",
   "theorems": [
    "C28_removed_factory_powerless",
    "C28_removed_factory_pools_stay"
   ],
   "note": ""
  },
  {
   "property": "C29",
   "status": "proved",
   "theorems": [
    "C29_execution_needs_quorum",
    "C29_recorded_below_quorum",
    "C29_confirmation_recorded"
   ],
   "note": ""
  },
  {
   "property": "C30",
   "status": "proved",
   "theorems": [
    "C30_ids_in_order",
    "C30_executed_at_most_once"
   ],
   "note": ""
  },
  {
   "property": "C31",
   "status": "proved",
   "theorems": [
    "C31_counters_exact",
    "C31_add_accepted_iff"
   ],
   "note": ""
  },
  {
   "property": "C32",
   "status": "proved",
   "theorems": [
    "C32_requests_and_confirmations",
    "C32_no_internal_error"
   ],
   "note": "The request and its confirmation set exist together; the three panics only a mismatch could raise are unreachable."
  },
  {
   "property": "C33",
   "status": "proved",
   "theorems": [
    "C33_strangers_rejected"
   ],
   "note": ""
  },
  {
   "property": "C34",
   "status": "proved",
   "theorems": [
    "C34_delete_accepted_iff"
   ],
   "note": ""
  },
  {
   "property": "C35",
   "status": "proved",
   "theorems": [
    "C35_settings_only_by_execution",
    "C35_executed_requests"
   ],
   "note": ""
  },
  {
   "property": "C36",
   "status": "partial",
   "theorems": [
    "C36_deleted_key_still_counts_refuted",
    "C36_deleted_key_requests_dropped"
   ],
   "note": "refuted: defect of the code. The full property is false: the witness executes a 2-of-3 request with the confirmation of a key deleted before. What holds is that the requests created by the deleted key are dropped."
  },
  {
   "property": "C37",
   "status": "partial",
   "theorems": [
    "C37_lingers_refuted",
    "C37_no_lingering"
   ],
   "note": "refuted: defect of the code. Lowering num_confirmations leaves requests active that already have enough confirmations (witness). Proved: it cannot happen as long as num_confirmations was never higher than it is."
  },
  {
   "property": "C38",
   "status": "proved",
   "theorems": [
    "C38_execution_needs_quorum",
    "C38_recorded_below_quorum",
    "C38_confirmation_recorded"
   ],
   "note": ""
  },
  {
   "property": "C39",
   "status": "proved",
   "theorems": [
    "C39_strangers_rejected"
   ],
   "note": ""
  },
  {
   "property": "C40",
   "status": "proved",
   "theorems": [
    "C40_ids_in_order",
    "C40_executed_at_most_once",
    "C40_counters_exact",
    "C40_add_accepted_iff",
    "C40_delete_accepted_iff",
    "C40_requests_and_confirmations",
    "C40_no_internal_error"
   ],
   "note": ""
  },
  {
   "property": "C41",
   "status": "partial",
   "theorems": [
    "C41_duplicate_members_refuted",
    "C41_raised_quorum_refuted",
    "C41_stuck_forever",
    "C41_quorum_reachable"
   ],
   "note": "refuted: defect of the code. new counts duplicate members and SetNumConfirmations is unchecked (two witnesses). Proved: with different initial members, and no settings change above the number of members, the quorum stays reachable through every removal; and a quorum above the members (and those who confirmed an active request) blocks every execution forever."
  },
  {
   "property": "C42",
   "status": "partial",
   "theorems": [
    "C42_removed_member_still_counts_refuted",
    "C42_removed_member_requests_dropped"
   ],
   "note": "refuted: defect of the code. Confirmations of a removed member still count (witness). Proved: the requests the removed member created are dropped."
  },
  {
   "property": "C43",
   "status": "partial",
   "theorems": [
    "C43_method_missing_refuted",
    "C43_keys_installed"
   ],
   "note": "refuted: defect of the code. MULTISIG_METHOD_NAMES lists add_and_confirm_request, the method is add_request_and_confirm (witness). Proved: every key member gets a key for the other three methods."
  },
  {
   "property": "C44",
   "status": "proved",
   "theorems": [
    "C44_text_injective"
   ],
   "note": "Over all byte strings with JSON escaping, so also for ids that are not valid account ids."
  },
  {
   "property": "C45",
   "status": "proved",
   "theorems": [
    "C45_reachable_states_are_well_formed",
    "C45_locked_amount_never_grows"
   ],
   "note": "For every well-formed state; every reachable state is well formed when public schedules are sane and revealed private ones are sane and covered by the lockup."
  },
  {
   "property": "C46",
   "status": "proved",
   "theorems": [
    "C46_locked_amount_exact",
    "C46_unvested_amount_exact",
    "C46_locked_amount_bounded",
    "C46_all_unlocked"
   ],
   "note": ""
  },
  {
   "property": "C47",
   "status": "proved",
   "theorems": [
    "C47_never_below_locked_amount_with_this_pool",
    "C47_never_below_locked_amount",
    "C47_transfers_only_by_these_methods"
   ],
   "note": "The staking pool is any pool that keeps the stated guarantee (pool_keeps); LockupPool shows it for the staking pool of this repository. The demand on private schedules is the documented one; C47_private_schedule_must_be_covered shows it is needed."
  },
  {
   "property": "C48",
   "status": "proved",
   "theorems": [
    "C48_busy_while_outstanding_with_this_pool",
    "C48_one_operation_at_a_time",
    "C48_busy_while_outstanding"
   ],
   "note": ""
  },
  {
   "property": "C49",
   "status": "proved",
   "theorems": [
    "C49_recorded_deposit_is_at_the_pool",
    "C49_pool_reports",
    "C49_at_any_time",
    "C49_pool_keeps_guarantees"
   ],
   "note": ""
  },
  {
   "property": "C50",
   "status": "proved",
   "theorems": [
    "C50_foundation_takes_the_unvested_amount"
   ],
   "note": ""
  },
  {
   "property": "C51",
   "status": "proved",
   "theorems": [
    "C51_owner_is_frozen",
    "C51_owner_methods_fail"
   ],
   "note": ""
  },
  {
   "property": "C52",
   "status": "proved",
   "theorems": [
    "C52_documented_transitions",
    "C52_over_when_paid"
   ],
   "note": ""
  },
  {
   "property": "C53",
   "status": "proved",
   "theorems": [
    "C53_foundation_can_collect_with_this_pool",
    "C53_foundation_can_collect"
   ],
   "note": "The storage reserve of 3.5 NEAR is never paid out, so the amount received is the unvested amount up to that reserve. The pool keeps staked and unstaked balances apart (all_keep_apart), answers views, and allows unstaking and withdrawing; the delay of withdrawals is part of waiting for it to allow them."
  },
  {
   "property": "C54",
   "status": "proved",
   "theorems": [
    "C54_full_access_only_when_unlocked",
    "C54_full_access_when_unlocked"
   ],
   "note": ""
  },
  {
   "property": "C55",
   "status": "proved",
   "theorems": [
    "C55_callers"
   ],
   "note": ""
  },
  {
   "property": "C56",
   "status": "proved",
   "theorems": [
    "C56_only_whitelisted_pools"
   ],
   "note": ""
  },
  {
   "property": "C57",
   "status": "proved",
   "theorems": [
    "C57_transfers_stay_enabled",
    "C57_enabled_by_the_vote"
   ],
   "note": ""
  },
  {
   "property": "C58",
   "status": "partial",
   "theorems": [
    "C58_schedule_not_validated_refuted",
    "C58_sane_schedule_partial"
   ],
   "note": "refuted: defect of the code. VestingSchedule::assert_valid is never called: initialisation accepts schedules whose unvested amount exceeds the lockup amount or is undefined (two witnesses, and a history in which the foundation takes more than the lockup amount). Proved: with a valid schedule the property holds."
  },
  {
   "property": "C59",
   "status": "partial",
   "theorems": [
    "C59_busy_for_ever_refuted",
    "C59_operation_ends_partial"
   ],
   "note": "refuted: defect of the code. When a view of the pool fails the callback panics and the contract stays busy for ever (proved for every continuation). Proved: if views answer, every operation ends after at most four deliveries, whatever the outcome of the other calls."
  },
  {
   "property": "C60",
   "status": "proved",
   "theorems": [
    "C60_transfer_accepted_iff",
    "C60_transfer_respects_liquidity",
    "C60_liquid_balance_exact"
   ],
   "note": ""
  },
  {
   "property": "C61",
   "status": "proved",
   "theorems": [
    "C61_gas_of_methods",
    "C61_gas_of_callbacks"
   ],
   "note": "The base cost of a method is taken to be the 25 Tgas the documentation uses; gas actually burnt is not modelled."
  },
  {
   "property": "C62",
   "status": "proved",
   "theorems": [
    "C62_deposit_created_or_refunded",
    "C62_every_creation_ends",
    "C62_callbacks_never_fail",
    "C62_factory_keeps_nothing"
   ],
   "note": ""
  },
  {
   "property": "C63",
   "status": "proved",
   "theorems": [
    "C63_no_account_twice",
    "C63_distinct_names",
    "C63_accepted_exactly_when"
   ],
   "note": ""
  },
  {
   "property": "C64",
   "status": "proved",
   "theorems": [
    "C64_only_created_pools",
    "C64_created_as_asked",
    "C64_creation_succeeds",
    "C64_number_of_pools",
    "C64_listed_pools_were_created",
    "C64_created_pools_get_listed"
   ],
   "note": ""
  },
  {
   "property": "C65",
   "status": "proved",
   "theorems": [
    "C65_names_are_valid",
    "C65_created_under_that_name",
    "C65_names_differ"
   ],
   "note": ""
  },
  {
   "property": "C66",
   "status": "proved",
   "theorems": [
    "C66_accepted_exactly_when",
    "C66_created_lockups_initialise",
    "C66_created_as_asked",
    "C66_lockup_properties_apply"
   ],
   "note": ""
  },
  {
   "property": "C67",
   "status": "proved",
   "theorems": [
    "C67_deposit_created_or_refunded",
    "C67_every_creation_ends",
    "C67_callbacks_never_fail",
    "C67_factory_keeps_nothing",
    "C67_one_lockup_per_account"
   ],
   "note": ""
  },
  {
   "property": "C68",
   "status": "partial",
   "theorems": [
    "C68_failed_creation_is_refunded_refuted",
    "C68_nobody_is_ever_refunded",
    "C68_created_or_kept_by_factory_partial",
    "C68_created_as_asked_partial",
    "C68_accepted_exactly_when_partial",
    "C68_creation_succeeds_partial"
   ],
   "note": "refuted: defect of the code. create has no callback, so the deposit of a failed creation stays with the factory (witness: more confirmations than members) and no caller is ever refunded. Proved: no token is lost (created, in flight or on the factory), multisigs are created only as asked, and the conditions under which a creation succeeds."
  },
  {
   "property": "C69",
   "status": "proved",
   "theorems": [
    "C69_supply_is_the_sum_of_balances"
   ],
   "note": "The token of near-contract-standards 3.1.0 is not in the repository; it is modelled from its published source. Storage price and record size (125 bytes, 10^19 per byte) as on mainnet. The contract's account is assumed not to call itself except through the callback."
  },
  {
   "property": "C70",
   "status": "proved",
   "theorems": [
    "C70_fully_backed",
    "C70_storage_is_paid",
    "C70_ledger"
   ],
   "note": "The token of near-contract-standards 3.1.0 is not in the repository; it is modelled from its published source. Storage price and record size (125 bytes, 10^19 per byte) as on mainnet. The contract's account is assumed not to call itself except through the callback."
  },
  {
   "property": "C71",
   "status": "proved",
   "theorems": [
    "C71_deposit_accepted_iff",
    "C71_deposit_effect",
    "C71_withdraw_accepted_iff",
    "C71_withdraw_effect"
   ],
   "note": "The token of near-contract-standards 3.1.0 is not in the repository; it is modelled from its published source. Storage price and record size (125 bytes, 10^19 per byte) as on mainnet. The contract's account is assumed not to call itself except through the callback."
  },
  {
   "property": "C72",
   "status": "proved",
   "theorems": [
    "C72_every_key_can_be_named",
    "C72_names",
    "C72_replace",
    "C72_replace_encoded",
    "C72_clean",
    "C72_clean_encoded",
    "C72_replace_accepted_iff",
    "C72_clean_accepted_iff",
    "C72_failed_call_changes_nothing",
    "C72_replace_then_clean",
    "C72_unmentioned_keys_are_kept"
   ],
   "note": "base64 0.13 decoding is modelled concretely (standard alphabet, optional padding, trailing bits refused), with its round trip proved; a function from keys to values models the storage."
  },
  {
   "property": "C73",
   "status": "proved",
   "theorems": [
    "C73_creation_accepted_iff"
   ],
   "note": ""
  },
  {
   "property": "C74",
   "status": "proved",
   "theorems": [
    "C74_lockup_factory_created",
    "C74_lockup_created_iff",
    "C74_lockup_created",
    "C74_multisig2_created",
    "C74_multisig2_created_iff",
    "C74_multisig_created",
    "C74_pool_factory_created",
    "C74_pool_created",
    "C74_voting_created",
    "C74_whitelist_created",
    "C74_whitelist_starts_empty"
   ],
   "note": ""
  },
  {
   "property": "C75",
   "status": "proved",
   "theorems": [
    "C75_settings_only_by_execution",
    "C75_executed_requests",
    "C75_members_exact"
   ],
   "note": ""
  },
  {
   "property": "C76",
   "status": "proved",
   "theorems": [
    "C76_only_the_owner_spends",
    "C76_transfer_accepted_iff",
    "C76_transfer_effect"
   ],
   "note": "The token of near-contract-standards 3.1.0 is not in the repository; it is modelled from its published source. Storage price and record size (125 bytes, 10^19 per byte) as on mainnet. The contract's account is assumed not to call itself except through the callback."
  },
  {
   "property": "C77",
   "status": "proved",
   "theorems": [
    "C77_storage_deposit_accepted_iff",
    "C77_storage_deposit_effect",
    "C77_unregister_accepted_iff",
    "C77_unregister_effect",
    "C77_storage_withdraw",
    "C77_storage_view"
   ],
   "note": "The token of near-contract-standards 3.1.0 is not in the repository; it is modelled from its published source. Storage price and record size (125 bytes, 10^19 per byte) as on mainnet. The contract's account is assumed not to call itself except through the callback."
  },
  {
   "property": "C78",
   "status": "proved",
   "theorems": [
    "C78_transfer_call_accepted_iff",
    "C78_transfer_call_effect",
    "C78_settled_once",
    "C78_settlement"
   ],
   "note": "The token of near-contract-standards 3.1.0 is not in the repository; it is modelled from its published source. Storage price and record size (125 bytes, 10^19 per byte) as on mainnet. The contract's account is assumed not to call itself except through the callback."
  },
  {
   "property": "C79",
   "status": "proved",
   "theorems": [
    "C79_everybody_can_leave"
   ],
   "note": "The token of near-contract-standards 3.1.0 is not in the repository; it is modelled from its published source. Storage price and record size (125 bytes, 10^19 per byte) as on mainnet. The contract's account is assumed not to call itself except through the callback."
  },
  {
   "property": "C80",
   "status": "proved",
   "theorems": [
    "C80_owner_can_leave_the_pool"
   ],
   "note": ""
  },
  {
   "property": "C81",
   "status": "proved",
   "theorems": [
    "C81_owner_can_cash_out"
   ],
   "note": ""
  },
  {
   "property": "C82",
   "status": "proved",
   "theorems": [
    "C82_pools_were_on_the_whitelist",
    "C82_pools_come_from_the_factory"
   ],
   "note": ""
  },
  {
   "property": "C83",
   "status": "proved",
   "theorems": [
    "C83_no_assumption_about_pools",
    "C83_locked_amount_is_covered",
    "C83_recorded_deposit_is_at_the_pool",
    "C83_busy_while_outstanding"
   ],
   "note": ""
  },
  {
   "property": "C84",
   "status": "proved",
   "theorems": [
    "C84_transfers_are_enabled_by_two_thirds",
    "C84_nothing_leaves_before_the_vote"
   ],
   "note": ""
  },
  {
   "property": "C85",
   "status": "proved",
   "theorems": [
    "C85_owner_can_leave_the_pool",
    "C85_owner_can_cash_out",
    "C85_foundation_can_collect"
   ],
   "note": ""
  },
  {
   "property": "C86",
   "status": "proved",
   "theorems": [
    "C86_lockup_factory_callback_is_private",
    "C86_pool_factory_callback_is_private",
    "C86_settlement_is_private"
   ],
   "note": ""
  },
  {
   "property": "C87",
   "status": "proved",
   "theorems": [
    "C87_fee_is_exact",
    "C87_rewards_are_proportional",
    "C87_unstaked_earns_nothing"
   ],
   "note": ""
  },
  {
   "property": "C88",
   "status": "proved",
   "theorems": [
    "C88_executes_iff",
    "C88_quorum_executes",
    "C88_quorum_executes_added"
   ],
   "note": ""
  },
  {
   "property": "C89",
   "status": "proved",
   "theorems": [
    "C89_executes_iff",
    "C89_quorum_executes",
    "C89_quorum_executes_added"
   ],
   "note": ""
  },
  {
   "property": "C90",
   "status": "proved",
   "theorems": [
    "C90_departures_are_executions",
    "C90_acts_only_by_quorum"
   ],
   "note": ""
  },
  {
   "property": "C91",
   "status": "proved",
   "theorems": [
    "C91_members_get_keys",
    "C91_members_can_act",
    "C91_repeated_key_locks_out"
   ],
   "note": ""
  },
  {
   "property": "C92",
   "status": "proved",
   "theorems": [
    "C92_departures_are_executions",
    "C92_acts_only_by_quorum"
   ],
   "note": ""
  },
  {
   "property": "C93",
   "status": "proved",
   "theorems": [
    "C93_keys_can_act"
   ],
   "note": ""
  },
  {
   "property": "C94",
   "status": "proved",
   "theorems": [
    "C94_votes_are_the_owners",
    "C94_listed_by_the_last_vote",
    "C94_owner_can_vote"
   ],
   "note": ""
  },
  {
   "property": "C95",
   "status": "proved",
   "theorems": [
    "C95_every_call_by_the_book",
    "C95_every_history_by_the_book"
   ],
   "note": "Limits in the statement: account total + 1 below 2^128, epoch + 4 below 2^64, at most 10^12 accepted stake/unstake calls, more than 10^12 yoctoNEAR at initialisation."
  },
  {
   "property": "C96",
   "status": "proved",
   "theorems": [
    "C96_every_call_by_the_book",
    "C96_every_history_by_the_book",
    "C96_views_by_the_book",
    "C96_unvested_view",
    "C96_locked_vested_view"
   ],
   "note": "Limits in the statement: account balance plus recorded deposit below 2^128, times of a revealed schedule below 2^64; states well formed (all reachable ones, C45)."
  },
  {
   "property": "C97",
   "status": "proved",
   "theorems": [
    "C97_every_history_by_the_book"
   ],
   "note": ""
  },
  {
   "property": "C98",
   "status": "proved",
   "theorems": [
    "C98_every_history_by_the_book"
   ],
   "note": ""
  },
  {
   "property": "C99",
   "status": "proved",
   "theorems": [
    "C99_collections_kept_apart",
    "C99_repo_layouts",
    "C99_typed_maps",
    "C99_sets",
    "C99_encodings"
   ],
   "note": ""
  },
  {
   "property": "C100",
   "status": "proved",
   "theorems": [
    "C100_in_flight",
    "C100_in_flight2",
    "C100_in_flight_can_use",
    "C100_in_flight_can_use2",
    "C100_lockup_history",
    "C100_multisig",
    "C100_multisig2",
    "C100_paid_by_quorum",
    "C100_paid_by_quorum2",
    "C100_quorum_can_use",
    "C100_quorum2_can_use"
   ],
   "note": "Conditions in the statement: the owner's account starts with keys that can only call the multisig, and no executed request deploys code or adds another kind of key to it (as in C90, C92). What the account sends to the lockup is executed there, all or nothing, at the moment it leaves; the delay before that is in the delivery of the receipt. Gas is not counted."
  },
  {
   "property": "C101",
   "status": "proved",
   "theorems": [
    "C101_pool",
    "C101_lockup_to_pool",
    "C101_lockup_asks",
    "C101_pool_factory",
    "C101_lockup_factory"
   ],
   "note": ""
  },
  {
   "property": "C102",
   "status": "proved",
   "theorems": [
    "C102_multisig_reachable",
    "C102_multisig2_reachable",
    "C102_voting_reachable",
    "C102_wnear_reachable",
    "C102_lockup",
    "C102_pool",
    "C102_voting",
    "C102_whitelist",
    "C102_multisig",
    "C102_multisig2",
    "C102_factories",
    "C102_wnear",
    "C102_entries",
    "C102_nothing_else_is_read",
    "C102_pool_reachable"
   ],
   "note": ""
  },
  {
   "property": "C103",
   "status": "proved",
   "theorems": [
    "C103_storage_is_covered"
   ],
   "note": ""
  },
  {
   "property": "C104",
   "status": "proved",
   "theorems": [
    "C104_schedule_is_committed"
   ],
   "note": ""
  },
  {
   "property": "C105",
   "status": "partial",
   "theorems": [
    "C105_bytes",
    "C105_records",
    "C105_withdrawals_refuted",
    "C105_first_delegators",
    "C105_covered_by_the_rest",
    "C105_charging_only_refuses"
   ],
   "note": "refuted: defect of the code. Nobody pays for the 198 bytes plus twice the name that a deposit's record takes, so dust deposits can use up what the pool has for storage and a granted withdrawal is refused by the runtime (witness: a hundred deposits of 1 yoctoNEAR on a pool of 2.7 NEAR). Proved: the exact size; no refusal while the accounts are as few as the initial tokens pay for (8417 for the 30 NEAR of the factory); none either while what the pool still owes covers the cost; charging for storage only removes calls. The size of the shipped code and the storage prices are constants."
  },
  {
   "property": "C106",
   "status": "proved",
   "theorems": [
    "C106_multisig",
    "C106_multisig2",
    "C106_in_flight",
    "C106_in_flight2",
    "C106_quorum_can_act",
    "C106_quorum2_can_act"
   ],
   "note": ""
  },
  {
   "property": "C107",
   "status": "proved",
   "theorems": [
    "C107_multisig",
    "C107_multisig2",
    "C107_quorum_can_govern",
    "C107_quorum2_can_govern"
   ],
   "note": ""
  },
  {
   "property": "C108",
   "status": "proved",
   "theorems": [
    "C108_multisig",
    "C108_multisig2",
    "C108_quorum_can_govern",
    "C108_quorum2_can_govern"
   ],
   "note": ""
  },
  {
   "property": "C109",
   "status": "proved",
   "theorems": [
    "C109_json",
    "C109_texts",
    "C109_amounts",
    "C109_pool_factory",
    "C109_lockup_factory",
    "C109_multisig_factory",
    "C109_pool",
    "C109_lockup",
    "C109_wnear",
    "C109_wnear_answer"
   ],
   "note": ""
  },
  {
   "property": "C110",
   "status": "proved",
   "theorems": [
    "C110_keys_can_act",
    "C110_members_can_act",
    "C110_lockup_governed",
    "C110_lockup_governed2",
    "C110_pool_governed",
    "C110_pool_governed2",
    "C110_whitelist_governed",
    "C110_whitelist_governed2",
    "C110_pool",
    "C110_whitelist",
    "C110_voting",
    "C110_pool_factory",
    "C110_lockup",
    "C110_lockup_factory",
    "C110_multisig_factory",
    "C110_multisig_new",
    "C110_multisig",
    "C110_multisig2_new",
    "C110_multisig2",
    "C110_wnear",
    "C110_resubmit",
    "C110_resubmit2"
   ],
   "note": ""
  },
  {
   "property": "C111",
   "status": "proved",
   "theorems": [
    "C111_same_history",
    "C111_answers_are_true",
    "C111_answered_once"
   ],
   "note": ""
  },
  {
   "property": "C112",
   "status": "proved",
   "theorems": [
    "C112_pool",
    "C112_minimal_pool",
    "C112_lockup",
    "C112_multisig",
    "C112_multisig2",
    "C112_voting",
    "C112_whitelist",
    "C112_wnear",
    "C112_pool_factory",
    "C112_lockup_factory"
   ],
   "note": ""
  },
  {
   "property": "C113",
   "status": "proved",
   "theorems": [
    "C113_pool_stories",
    "C113_pool_whitelist_answer",
    "C113_pool_calls",
    "C113_pool_same_history",
    "C113_pool_false_has_two_stories",
    "C113_lockup_stories",
    "C113_lockup_calls",
    "C113_lockup_same_history",
    "C113_multisig_stories",
    "C113_multisig_calls",
    "C113_multisig_same_history"
   ],
   "note": "The doc comment of on_staking_pool_create says that it refunds and returns false otherwise; C113_pool_false_has_two_stories shows that a caller cannot conclude a refund from false alone."
  },
  {
   "property": "C114",
   "status": "proved",
   "theorems": [
    "C114_same_calls",
    "C114_unambiguous",
    "C114_call_lines",
    "C114_log_tells_the_books"
   ],
   "note": ""
  },
  {
   "property": "C115",
   "status": "proved",
   "theorems": [
    "C115_same_calls",
    "C115_unambiguous",
    "C115_call_lines",
    "C115_reachable_names",
    "C115_log_tells_the_books"
   ],
   "note": ""
  },
  {
   "property": "C116",
   "status": "proved",
   "theorems": [
    "C116_same_calls",
    "C116_unambiguous",
    "C116_pool_factory",
    "C116_lockup_factory",
    "C116_deposit_line",
    "C116_withdraw_line",
    "C116_no_other_line",
    "C116_wrapped_supply",
    "C116_burnt_when"
   ],
   "note": ""
  },
  {
   "property": "C117",
   "status": "proved",
   "theorems": [
    "C117_two_thirds_end_it",
    "C117_anyone_can_close_it",
    "C117_a_third_keeps_it_open"
   ],
   "note": ""
  },
  {
   "property": "C118",
   "status": "proved",
   "theorems": [
    "C118_no_gain_without_rewards",
    "C118_groups_gain_no_more",
    "C118_newcomers_get_no_old_rewards"
   ],
   "note": ""
  },
  {
   "property": "C119",
   "status": "proved",
   "theorems": [
    "C119_refusing_members_stop_everything",
    "C119_refusing_keys_stop_everything"
   ],
   "note": ""
  },
  {
   "property": "C120",
   "status": "proved",
   "theorems": [
    "C120_two_thirds_enable_transfers",
    "C120_owner_can_enable_transfers",
    "C120_a_third_prevents_transfers"
   ],
   "note": ""
  },
  {
   "property": "C121",
   "status": "proved",
   "theorems": [
    "C121_pool_keeps_its_settings",
    "C121_pool_keeps_its_settings2",
    "C121_whitelist_keeps_its_lists",
    "C121_whitelist_keeps_its_lists2",
    "C121_members_can_silence",
    "C121_keys_can_silence",
    "C121_lockup_pays_nothing",
    "C121_lockup_pays_nothing2"
   ],
   "note": ""
  },
  {
   "property": "C122",
   "status": "proved",
   "theorems": [
    "C122_later_terms_lock_more",
    "C122_later_terms_any_state",
    "C122_more_tokens"
   ],
   "note": ""
  },
  {
   "property": "C123",
   "status": "proved",
   "theorems": [
    "C123_lower_fee_is_never_worse",
    "C123_more_rewards_are_never_worse"
   ],
   "note": ""
  },
  {
   "property": "C124",
   "status": "proved",
   "theorems": [
    "C124_fee_is_never_retroactive"
   ],
   "note": ""
  },
  {
   "property": "C125",
   "status": "proved",
   "theorems": [
    "C125_ping_first_makes_no_difference"
   ],
   "note": ""
  },
  {
   "property": "C126",
   "status": "proved",
   "theorems": [
    "C126_deposits_add_up",
    "C126_withdrawals_add_up"
   ],
   "note": ""
  }
 ]
}