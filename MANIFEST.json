{
 "claims": [
  {
   "property": "C01",
   "status": "proved",
   "theorems": [
    "C01_supply_history",
    "C01_supply_system",
    "C01_supply_step"
   ],
   "note": ""
  },
  {
   "property": "C02",
   "status": "proved",
   "theorems": [
    "C02_only_owner_or_spender",
    "C02_other_tokens"
   ],
   "note": ""
  },
  {
   "property": "C03",
   "status": "proved",
   "theorems": [
    "C03_allowance_bounds",
    "C03_approval_exact"
   ],
   "note": ""
  },
  {
   "property": "C04",
   "status": "proved",
   "theorems": [
    "C04_balance_range_history",
    "C04_balance_range_system"
   ],
   "note": ""
  },
  {
   "property": "C05",
   "status": "proved",
   "theorems": [
    "C05_only_admin_mints",
    "C05_only_admin_mints_system"
   ],
   "note": ""
  },
  {
   "property": "C06",
   "status": "proved",
   "theorems": [
    "C06_pool_solvency"
   ],
   "note": ""
  },
  {
   "property": "C07",
   "status": "proved",
   "theorems": [
    "C07_lp_total_bounds_supply",
    "C07_lp_total_is_supply"
   ],
   "note": ""
  },
  {
   "property": "C08",
   "status": "proved",
   "theorems": [
    "C08_first_deposit_locks",
    "C08_minimum_liquidity_locked"
   ],
   "note": ""
  },
  {
   "property": "C09",
   "status": "proved",
   "theorems": [
    "C09_withdrawal_pro_rata"
   ],
   "note": ""
  },
  {
   "property": "C10",
   "status": "proved",
   "theorems": [
    "C10_deposit_no_dilution"
   ],
   "note": ""
  },
  {
   "property": "C11",
   "status": "proved",
   "theorems": [
    "C11_constant_product"
   ],
   "note": ""
  },
  {
   "property": "C12",
   "status": "proved",
   "theorems": [
    "C12_product_never_falls_refuted"
   ],
   "note": "The property is false of the code; the theorem refutes it with a reachable state. C11 bounds the loss."
  },
  {
   "property": "C13",
   "status": "proved",
   "theorems": [
    "C13_price_below_spot"
   ],
   "note": ""
  },
  {
   "property": "C14",
   "status": "proved",
   "theorems": [
    "C14_swap_settlement",
    "C14_sender_is_not_the_pool"
   ],
   "note": ""
  },
  {
   "property": "C15",
   "status": "proved",
   "theorems": [
    "C15_swap_guards"
   ],
   "note": ""
  },
  {
   "property": "C16",
   "status": "proved",
   "theorems": [
    "C16_quote_is_execution",
    "C16_swap_implies_quote"
   ],
   "note": ""
  },
  {
   "property": "C17",
   "status": "proved",
   "theorems": [
    "C17_reverse_quote_sufficient_refuted",
    "C17_quote_plus_one_suffices"
   ],
   "note": "The property is false of the code; the theorem refutes it with a reachable state. One unit more than the quote is enough for asks up to 10^18."
  },
  {
   "property": "C18",
   "status": "proved",
   "theorems": [
    "C18_deposit_bounds",
    "C18_first_deposit_minimum_refuted"
   ],
   "note": "The second theorem shows the exception in the statement is real."
  },
  {
   "property": "C19",
   "status": "proved",
   "theorems": [
    "C19_deposit_withdraw_no_profit"
   ],
   "note": ""
  },
  {
   "property": "C20",
   "status": "proved",
   "theorems": [
    "C20_round_trip"
   ],
   "note": ""
  },
  {
   "property": "C21",
   "status": "proved",
   "theorems": [
    "C21_no_drain"
   ],
   "note": ""
  },
  {
   "property": "C22",
   "status": "proved",
   "theorems": [
    "C22_settings_valid"
   ],
   "note": ""
  },
  {
   "property": "C23",
   "status": "proved",
   "theorems": [
    "C23_default_slippage_valid_refuted"
   ],
   "note": "The property is false of the code; the theorem refutes it with a reachable state."
  },
  {
   "property": "C24",
   "status": "proved",
   "theorems": [
    "C24_only_admin_changes_settings",
    "C24_initialise_once"
   ],
   "note": ""
  },
  {
   "property": "C25",
   "status": "proved",
   "theorems": [
    "C25_pool_keeps_accepting_deposits_refuted",
    "C25_drained_pool_is_frozen"
   ],
   "note": "The property is false of the code; the theorem refutes it with a reachable state. Such a pool is frozen for ever: deposits, swaps and withdrawals all fail."
  },
  {
   "property": "C26",
   "status": "proved",
   "theorems": [
    "C26_deposits_mint_shares_refuted"
   ],
   "note": "The property is false of the code; the theorem refutes it with a reachable state."
  },
  {
   "property": "C27",
   "status": "proved",
   "theorems": [
    "C27_stable_solvency"
   ],
   "note": ""
  },
  {
   "property": "C28",
   "status": "proved",
   "theorems": [
    "C28_stable_total_bounds_supply",
    "C28_stable_total_is_supply"
   ],
   "note": ""
  },
  {
   "property": "C29",
   "status": "proved",
   "theorems": [
    "C29_stable_deposit"
   ],
   "note": ""
  },
  {
   "property": "C30",
   "status": "proved",
   "theorems": [
    "C30_stable_swap"
   ],
   "note": ""
  },
  {
   "property": "C31",
   "status": "proved",
   "theorems": [
    "C31_stable_quote_is_execution",
    "C31_swap_implies_quote"
   ],
   "note": ""
  },
  {
   "property": "C32",
   "status": "proved",
   "theorems": [
    "C32_only_admin_changes_settings_refuted",
    "C32_settings_need_admin_name"
   ],
   "note": "The property is false of the code; the theorem refutes it with a reachable state. The second theorem says what does hold: the caller has to name the admin as sender."
  },
  {
   "property": "C33",
   "status": "proved",
   "theorems": [
    "C33_D_iteration",
    "C33_y_iteration"
   ],
   "note": ""
  },
  {
   "property": "C34",
   "status": "proved",
   "theorems": [
    "C34_minimum_liquidity_locked_refuted"
   ],
   "note": "The property is false of the code; the theorem refutes it with a reachable state."
  },
  {
   "property": "C35",
   "status": "proved",
   "theorems": [
    "C35_total_is_sum_of_stakes",
    "C35_user_total"
   ],
   "note": ""
  },
  {
   "property": "C36",
   "status": "proved",
   "theorems": [
    "C36_principal_backed",
    "C36_principal_backed_if_day_totals_kept",
    "C36_principal_backed_refuted"
   ],
   "note": "The property is false of the code; the theorem refutes it with a reachable state. It holds when the LP token is not itself a reward token, or when no distribution at an already recorded time lowers the recorded total (first two theorems)."
  },
  {
   "property": "C37",
   "status": "proved",
   "theorems": [
    "C37_principal_withdrawable",
    "C37_principal_withdrawable_refuted"
   ],
   "note": "The property is false of the code; the theorem refutes it with a reachable state. It holds under the conditions of C36 (first theorem)."
  },
  {
   "property": "C38",
   "status": "proved",
   "theorems": [
    "C38_reward_solvency",
    "C38_reward_solvency_refuted"
   ],
   "note": "The property is false of the code; the theorem refutes it with a reachable state. It holds in histories where no distribution at an already recorded time lowers the recorded total (first theorem)."
  },
  {
   "property": "C39",
   "status": "proved",
   "theorems": [
    "C39_withdraw_pays_what_is_announced",
    "C39_nothing_left_after_withdrawal"
   ],
   "note": ""
  },
  {
   "property": "C40",
   "status": "proved",
   "theorems": [
    "C40_reward_size",
    "C40_reward_near_linear"
   ],
   "note": ""
  },
  {
   "property": "C41",
   "status": "proved",
   "theorems": [
    "C41_every_staker_can_withdraw_refuted",
    "C41_late_staker_blocked_for_good",
    "C41_early_stakers_can_withdraw"
   ],
   "note": "The property is false of the code; the theorem refutes it with a reachable state. A user who stakes after a distribution they have not claimed is blocked for good; everybody else can withdraw."
  },
  {
   "property": "C42",
   "status": "proved",
   "theorems": [
    "C42_unbonding_keeps_rewards_refuted"
   ],
   "note": "The property is false of the code; the theorem refutes it with a reachable state."
  },
  {
   "property": "C43",
   "status": "proved",
   "theorems": [
    "C43_every_distribution_claimable_refuted"
   ],
   "note": "The property is false of the code; the theorem refutes it with a reachable state."
  },
  {
   "property": "C44",
   "status": "proved",
   "theorems": [
    "C44_only_manager_or_owner_distributes"
   ],
   "note": ""
  },
  {
   "property": "C45",
   "status": "proved",
   "theorems": [
    "C45_distributed_minus_withdrawable_is_paid"
   ],
   "note": ""
  },
  {
   "property": "C46",
   "status": "proved",
   "theorems": [
    "C46_locked_rewards_stay",
    "C46_only_distribute_releases"
   ],
   "note": ""
  },
  {
   "property": "C47",
   "status": "proved",
   "theorems": [
    "C47_multiplier_bypass_refuted",
    "C47_claim_shrinks_by_the_payment",
    "C47_full_multiplier_pays_once"
   ],
   "note": "The property is false of the code; the theorem refutes it with a reachable state. Repeated withdrawals at the same time keep paying; each lowers the claim by what it pays, and at full multiplier the second pays nothing."
  },
  {
   "property": "C48",
   "status": "proved",
   "theorems": [
    "C48_backwards_funding_refuted",
    "C48_funded_rewards_unlock",
    "C48_end_after_funding",
    "C48_everything_released"
   ],
   "note": "The property is false of the code; the theorem refutes it with a reachable state. A funding that starts after it ends, added to an active curve, stays locked; if every funding starts before it ends, everything unlocks."
  },
  {
   "property": "C49",
   "status": "proved",
   "theorems": [
    "C49_vesting_solvency"
   ],
   "note": ""
  },
  {
   "property": "C50",
   "status": "proved",
   "theorems": [
    "C50_claims_follow_schedule",
    "C50_claim_catches_up"
   ],
   "note": ""
  },
  {
   "property": "C51",
   "status": "proved",
   "theorems": [
    "C51_everything_claimable_at_end"
   ],
   "note": ""
  },
  {
   "property": "C52",
   "status": "proved",
   "theorems": [
    "C52_entries_independent",
    "C52_indexes_consecutive",
    "C52_creation_appends"
   ],
   "note": ""
  },
  {
   "property": "C53",
   "status": "proved",
   "theorems": [
    "C53_admin_creates_and_pays",
    "C53_entries_appear_only_by_creation",
    "C53_only_recipient_claims"
   ],
   "note": ""
  },
  {
   "property": "C54",
   "status": "proved",
   "theorems": [
    "C54_mint_lowers_capacity",
    "C54_only_admin_raises_capacity",
    "C54_minting_respects_capacity"
   ],
   "note": ""
  },
  {
   "property": "C55",
   "status": "proved",
   "theorems": [
    "C55_decreasing_curves",
    "C55_increasing_curves"
   ],
   "note": ""
  },
  {
   "property": "C56",
   "status": "proved",
   "theorems": [
    "C56_value_in_range",
    "C56_value_defined"
   ],
   "note": ""
  },
  {
   "property": "C57",
   "status": "proved",
   "theorems": [
    "C57_combine_at_steps",
    "C57_combine_everywhere",
    "C57_combine_decreasing"
   ],
   "note": ""
  },
  {
   "property": "C58",
   "status": "proved",
   "theorems": [
    "C58_combined_size",
    "C58_combined_times"
   ],
   "note": ""
  },
  {
   "property": "C59",
   "status": "proved",
   "theorems": [
    "C59_from_ratio",
    "C59_mul",
    "C59_mul_int",
    "C59_from_ratio_total",
    "C59_div",
    "C59_div_int",
    "C59_sums",
    "C59_failures"
   ],
   "note": ""
  },
  {
   "property": "C60",
   "status": "proved",
   "theorems": [
    "C60_text_roundtrip"
   ],
   "note": ""
  },
  {
   "property": "C61",
   "status": "proved",
   "theorems": [
    "C61_negative_roundtrip_refuted",
    "C61_negative_parse_refuted"
   ],
   "note": "The property is false of the code; the theorems refute it with concrete values."
  },
  {
   "property": "C62",
   "status": "proved",
   "theorems": [
    "C62_created_pool_is_registered",
    "C62_registry_is_exact"
   ],
   "note": ""
  },
  {
   "property": "C63",
   "status": "proved",
   "theorems": [
    "C63_one_pool_per_pair",
    "C63_no_second_pool"
   ],
   "note": ""
  },
  {
   "property": "C64",
   "status": "proved",
   "theorems": [
    "C64_only_whitelisted_create"
   ],
   "note": ""
  },
  {
   "property": "C65",
   "status": "proved",
   "theorems": [
    "C65_whitelist_update",
    "C65_no_duplicates_arise"
   ],
   "note": ""
  },
  {
   "property": "C66",
   "status": "proved",
   "theorems": [
    "C66_multihop_is_its_swaps",
    "C66_bad_lists_rejected",
    "C66_multihop_balances",
    "C66_router_keeps_nothing",
    "C66_minimum_enforced"
   ],
   "note": ""
  },
  {
   "property": "C67",
   "status": "proved",
   "theorems": [
    "C67_quote_is_execution",
    "C67_swap_implies_quote"
   ],
   "note": ""
  },
  {
   "property": "C68",
   "status": "proved",
   "theorems": [
    "C68_repeated_pool_refuted"
   ],
   "note": "The property is false of the code; the theorem refutes it with a reachable state. It holds when all hops use different pools (C67)."
  },
  {
   "property": "C69",
   "status": "proved",
   "theorems": [
    "C69_trader_funds",
    "C69_only_transfers"
   ],
   "note": ""
  },
  {
   "property": "C70",
   "status": "proved",
   "theorems": [
    "C70_trade_never_succeeds"
   ],
   "note": "The property is false of the code; the theorem refutes it with a reachable state. trade_token fails in every reachable state: the pool's transfer of the trader's tokens is never authorised."
  },
  {
   "property": "C71",
   "status": "proved",
   "theorems": [
    "C71_no_third_party_loss",
    "C71_allowance_granted_by_owner",
    "C71_contracts_grant_nothing",
    "C71_silent_account"
   ],
   "note": ""
  },
  {
   "property": "C72",
   "status": "proved",
   "theorems": [
    "C72_query_share_is_payout"
   ],
   "note": ""
  },
  {
   "property": "C73",
   "status": "proved",
   "theorems": [
    "C73_deposit_profits_from_donations_refuted"
   ],
   "note": "The property is false of the code; the theorem refutes it with a reachable state."
  },
  {
   "property": "C74",
   "status": "proved",
   "theorems": [
    "C74_swap_stays_above_curve"
   ],
   "note": "for pools of tokens with different decimals see C142"
  },
  {
   "property": "C75",
   "status": "proved",
   "theorems": [
    "C75_swap_not_better_than_par"
   ],
   "note": "for pools of tokens with different decimals see C142"
  },
  {
   "property": "C76",
   "status": "proved",
   "theorems": [
    "C76_any_funded_pool_can_be_swapped_refuted",
    "C76_swaps_need_small_pools"
   ],
   "note": "The property is false of the code; the theorem refutes it with a reachable state. The second theorem bounds the size of every pool in which a swap succeeds."
  },
  {
   "property": "C77",
   "status": "proved",
   "theorems": [
    "C77_deposits_need_small_pools"
   ],
   "note": ""
  },
  {
   "property": "C78",
   "status": "proved",
   "theorems": [
    "C78_stable_deposits_mint_shares_refuted"
   ],
   "note": "The property is false of the code; the theorem refutes it with a reachable state."
  },
  {
   "property": "C79",
   "status": "proved",
   "theorems": [
    "C79_no_free_exchange_refuted"
   ],
   "note": "The property is false of the code; the theorem refutes it with a reachable state."
  },
  {
   "property": "C80",
   "status": "proved",
   "theorems": [
    "C80_stable_withdrawal"
   ],
   "note": ""
  },
  {
   "property": "C81",
   "status": "proved",
   "theorems": [
    "C81_stable_query_share_is_payout"
   ],
   "note": ""
  },
  {
   "property": "C82",
   "status": "proved",
   "theorems": [
    "C82_D_bounds"
   ],
   "note": ""
  },
  {
   "property": "C83",
   "status": "proved",
   "theorems": [
    "C83_stable_reverse_quote_sufficient_refuted"
   ],
   "note": "The property is false of the code; the theorem refutes it with a reachable state."
  },
  {
   "property": "C84",
   "status": "proved",
   "theorems": [
    "C84_scarce_token_near_par_refuted"
   ],
   "note": "The property is false of the code; the theorem refutes it with a reachable state."
  },
  {
   "property": "C85",
   "status": "proved",
   "theorems": [
    "C85_claims_possible_during_schedule_refuted"
   ],
   "note": "The property is false of the code; the theorem refutes it with a reachable state."
  },
  {
   "property": "C86",
   "status": "proved",
   "theorems": [
    "C86_tokens_leave_only_by_claims",
    "C86_surplus_is_stuck"
   ],
   "note": ""
  },
  {
   "property": "C87",
   "status": "proved",
   "theorems": [
    "C87_query_is_what_claim_pays",
    "C87_claim_implies_query"
   ],
   "note": ""
  },
  {
   "property": "C88",
   "status": "proved",
   "theorems": [
    "C88_rewards_of_any_size_withdrawable_refuted",
    "C88_oversized_reward_blocks_for_good"
   ],
   "note": "The property is false of the code; the theorem refutes it with a reachable state."
  },
  {
   "property": "C89",
   "status": "proved",
   "theorems": [
    "C89_claims_are_covered"
   ],
   "note": ""
  },
  {
   "property": "C90",
   "status": "proved",
   "theorems": [
    "C90_stake_changes_keep_claims"
   ],
   "note": ""
  },
  {
   "property": "C91",
   "status": "proved",
   "theorems": [
    "C91_big_distribution_refuted",
    "C91_distribution_is_fully_credited"
   ],
   "note": "The property is false of the code; the theorem refutes it with a reachable state. Holds for amounts below 2^96."
  },
  {
   "property": "C92",
   "status": "proved",
   "theorems": [
    "C92_staking_contract_signs"
   ],
   "note": ""
  },
  {
   "property": "C93",
   "status": "proved",
   "theorems": [
    "C93_large_stakes_refuted"
   ],
   "note": "The property is false of the code; the theorem refutes it with a reachable state."
  },
  {
   "property": "C94",
   "status": "proved",
   "theorems": [
    "C94_removed_stay_out_refuted"
   ],
   "note": "The property is false of the code; the theorem refutes it with a reachable state. It holds for duplicate-free whitelists (C65)."
  },
  {
   "property": "C95",
   "status": "proved",
   "theorems": [
    "C95_whitelist_nonempty_refuted",
    "C95_nobody_creates"
   ],
   "note": "The property is false of the code; the theorem refutes it with a reachable state."
  },
  {
   "property": "C96",
   "status": "proved",
   "theorems": [
    "C96_portfolio_is_exact",
    "C96_worth_is_pro_rata",
    "C96_held_at_most_total"
   ],
   "note": ""
  },
  {
   "property": "C97",
   "status": "proved",
   "theorems": [
    "C97_portfolio_refuted",
    "C97_portfolio_answers"
   ],
   "note": "The property is false of the code; the theorem refutes it with a reachable state. It holds when shares and reserves stay at or below 170141183460469231731 (2^127/10^18)."
  },
  {
   "property": "C98",
   "status": "proved",
   "theorems": [
    "C98_pool_wiring",
    "C98_wiring_is_private"
   ],
   "note": ""
  },
  {
   "property": "C99",
   "status": "proved",
   "theorems": [
    "C99_reverse_quote_direction_refuted"
   ],
   "note": "The property is false of the code; the theorem refutes it with a reachable state. At stable pools the router's reverse quote is for the opposite direction."
  },
  {
   "property": "C100",
   "status": "proved",
   "theorems": [
    "C100_code_replaced_by_admin_only",
    "C100_admin_can_replace"
   ],
   "note": ""
  },
  {
   "property": "C101",
   "status": "proved",
   "theorems": [
    "C101_tokens_and_traders_keep_their_code"
   ],
   "note": ""
  },
  {
   "property": "C102",
   "status": "proved",
   "theorems": [
    "C102_admins_are_fixed"
   ],
   "note": ""
  },
  {
   "property": "C103",
   "status": "proved",
   "theorems": [
    "C103_only_the_deployer_initialises_refuted",
    "C103_initialisation_is_open"
   ],
   "note": "The property is false of the code; the theorem refutes it with a reachable state. The second theorem says that the takeover works for every deployed but uninitialised contract of these kinds, with no signature at all."
  },
  {
   "property": "C104",
   "status": "proved",
   "theorems": [
    "C104_handover_covers_staking_refuted"
   ],
   "note": "The property is false of the code; the theorem refutes it with a reachable state. The admin of the staking contract is fixed at initialisation (C102), so a handover of the pool does not reach it."
  },
  {
   "property": "C105",
   "status": "proved",
   "theorems": [
    "C105_share_value_kept",
    "C105_share_value_kept_for_ever"
   ],
   "note": ""
  },
  {
   "property": "C106",
   "status": "proved",
   "theorems": [
    "C106_deadlines"
   ],
   "note": ""
  },
  {
   "property": "C107",
   "status": "proved",
   "theorems": [
    "C107_deposit_at_pool_price"
   ],
   "note": ""
  },
  {
   "property": "C108",
   "status": "proved",
   "theorems": [
    "C108_stable_tolerance_refuted",
    "C108_stable_tolerance_is_ignored"
   ],
   "note": "The property is false of the code; the theorem refutes it with a reachable state. The tolerance has no effect at all as long as it is admissible."
  },
  {
   "property": "C109",
   "status": "proved",
   "theorems": [
    "C109_initialised_once",
    "C109_stays_initialised"
   ],
   "note": ""
  },
  {
   "property": "C110",
   "status": "proved",
   "theorems": [
    "C110_pow",
    "C110_pow_256",
    "C110_pow_total"
   ],
   "note": "error bound n-1 units of the last place for bases up to one"
  },
  {
   "property": "C111",
   "status": "proved",
   "theorems": [
    "C111_inv",
    "C111_inv_256",
    "C111_zero_only"
   ],
   "note": "both decimal types"
  },
  {
   "property": "C112",
   "status": "proved",
   "theorems": [
    "C112_from_atomics",
    "C112_to_i128",
    "C112_to_i128_total",
    "C112_roundtrip",
    "C112_percent"
   ],
   "note": ""
  },
  {
   "property": "C113",
   "status": "proved",
   "theorems": [
    "C113_abs_diff_refuted",
    "C113_abs_diff",
    "C113_abs"
   ],
   "note": "The property is false of the code; the theorem refutes it with a reachable state. The difference is cast from u128 to i128 and wraps: |MAX - MIN| is -1; correct exactly when the distance fits; abs fails exactly at the minimum"
  },
  {
   "property": "C114",
   "status": "proved",
   "theorems": [
    "C114_mul",
    "C114_div",
    "C114_from_ratio",
    "C114_total",
    "C114_agrees",
    "C114_add_sub",
    "C114_from_atomics",
    "C114_to_u128",
    "C114_percent"
   ],
   "note": "decimal256.rs is used by no contract"
  },
  {
   "property": "C115",
   "status": "proved",
   "theorems": [
    "C115_abs_diff_256_refuted",
    "C115_abs_diff_256"
   ],
   "note": "The property is false of the code; the theorem refutes it with a reachable state. Operands above 2^128-1 panic"
  },
  {
   "property": "C116",
   "status": "proved",
   "theorems": [
    "C116_multiply_ratio_refuted",
    "C116_multiply_ratio"
   ],
   "note": "The property is false of the code; the theorem refutes it with a reachable state. The result is 10^18 times too large; private code, called only by a test"
  },
  {
   "property": "C117",
   "status": "proved",
   "theorems": [
    "C117_reverse_route_composes",
    "C117_reverse_leg"
   ],
   "note": "legs through stable pools are quoted for the wrong direction, see C99"
  },
  {
   "property": "C118",
   "status": "proved",
   "theorems": [
    "C118_annualised_payout"
   ],
   "note": "fundings that end before they start are accepted by the code and leave tokens locked for ever, see C48"
  },
  {
   "property": "C119",
   "status": "proved",
   "theorems": [
    "C119_annualised_rate_refuted",
    "C119_reported_rate"
   ],
   "note": "The property is false of the code; the theorem refutes it with a reachable state. The payout is divided by the points distributed so far per unit of power (shares_per_point), which grows with every distribution: the reported rate collapses after the first one."
  },
  {
   "property": "C120",
   "status": "proved",
   "theorems": [
    "C120_withdrawal_succeeds_iff"
   ],
   "note": ""
  },
  {
   "property": "C121",
   "status": "proved",
   "theorems": [
    "C121_swap_succeeds_iff"
   ],
   "note": ""
  },
  {
   "property": "C122",
   "status": "proved",
   "theorems": [
    "C122_small_holder_stuck_refuted",
    "C122_large_holder_stuck_refuted"
   ],
   "note": "The property is false of the code; the theorem refutes it with a reachable state. Minimum amounts must be positive, so shares whose part of one reserve rounds to zero cannot be redeemed at all (999 of 4000 shares, worth 999000 of the other token). In a pool with 10^24 of one token (a million, 18 decimals) the product of reserve and ratio overflows for all but 0.018% of the shares at a time."
  },
  {
   "property": "C123",
   "status": "proved",
   "theorems": [
    "C123_swap_within_limit_refuted"
   ],
   "note": "The property is false of the code; the theorem refutes it with a reachable state. spread * 10^18 is formed in 128 bits: a swap of 2% of the reserve with spread 2% and limit 10% is refused when the other token has 18 decimals."
  },
  {
   "property": "C124",
   "status": "proved",
   "theorems": [
    "C124_deposit_succeeds_iff",
    "C124_first_deposit_succeeds_iff",
    "C124_one_sided_deposit_fails"
   ],
   "note": ""
  },
  {
   "property": "C125",
   "status": "proved",
   "theorems": [
    "C125_token_calls_succeed_iff"
   ],
   "note": "for transfer_from and burn_from under the hypothesis that the allowance is an i128, which the model does not enforce on arguments"
  },
  {
   "property": "C126",
   "status": "proved",
   "theorems": [
    "C126_bond_succeeds_iff",
    "C126_unbond_succeeds_iff",
    "C126_distribute_succeeds_iff"
   ],
   "note": ""
  },
  {
   "property": "C127",
   "status": "proved",
   "theorems": [
    "C127_stable_withdrawal_succeeds_iff"
   ],
   "note": ""
  },
  {
   "property": "C128",
   "status": "proved",
   "theorems": [
    "C128_stable_swap_succeeds_iff"
   ],
   "note": "the quote itself can fail when the Newton iteration does not fit, see C76-C79"
  },
  {
   "property": "C129",
   "status": "proved",
   "theorems": [
    "C129_deposit_capacity_refuted"
   ],
   "note": "The property is false of the code; the theorem refutes it with a reachable state. The new balance times the share total must fit 128 bits: with two 18-decimals tokens a pool of ten tokens on each side refuses every deposit of eight or more."
  },
  {
   "property": "C130",
   "status": "proved",
   "theorems": [
    "C130_listing_complete"
   ],
   "note": ""
  },
  {
   "property": "C131",
   "status": "proved",
   "theorems": [
    "C131_slippage_check",
    "C131_slippage_check_exact"
   ],
   "note": ""
  },
  {
   "property": "C132",
   "status": "proved",
   "theorems": [
    "C132_split_deposit",
    "C132_search_ends"
   ],
   "note": ""
  },
  {
   "property": "C133",
   "status": "proved",
   "theorems": [
    "C133_split_matches_ratio_refuted"
   ],
   "note": "The property is false of the code; the theorem refutes it with a reachable state. The search returns the last amount tried, not the best: in an ordinary pool a deposit of 10000 is split 12% off the proportion. The tolerance is absolute (0.01), so in a pool with ratio 0.0001 the first amount tried is always taken."
  },
  {
   "property": "C134",
   "status": "proved",
   "theorems": [
    "C134_proportional_deposits_accepted_refuted"
   ],
   "note": "The property is false of the code; the theorem refutes it with a reachable state. The product of deposit and reserve times 10^18 must fit in an i128: with 7-decimals tokens adding 10000 of each to 1000000 of each overflows."
  },
  {
   "property": "C135",
   "status": "proved",
   "theorems": [
    "C135_claim_succeeds_iff",
    "C135_creation_succeeds_iff",
    "C135_mint_succeeds_iff"
   ],
   "note": "creation under the hypotheses that the vesting token is a token and the curve numbers are within their integer types"
  },
  {
   "property": "C136",
   "status": "proved",
   "theorems": [
    "C136_xyk_creation_succeeds_iff",
    "C136_stable_creation_succeeds_iff"
   ],
   "note": ""
  },
  {
   "property": "C137",
   "status": "proved",
   "theorems": [
    "C137_withdraw_rewards_succeeds_iff"
   ],
   "note": ""
  },
  {
   "property": "C138",
   "status": "proved",
   "theorems": [
    "C138_bad_flow_blocks_rewards",
    "C138_new_flow_keeps_rewards_refuted"
   ],
   "note": "The property is false of the code; the theorem refutes it with a reachable state. withdraw_rewards transfers every distribution asset, also when nothing is due; create_distribution_flow accepts any address, and flows cannot be removed. One flow for an account address or another contract that is no token blocks the reward withdrawals of all users for good."
  },
  {
   "property": "C139",
   "status": "proved",
   "theorems": [
    "C139_foreign_swap_solvent",
    "C139_foreign_withdrawal_solvent",
    "C139_foreign_deposit_solvent",
    "C139_foreign_stable_swap_solvent",
    "C139_foreign_stable_withdrawal_solvent",
    "C139_foreign_stable_deposit_solvent"
   ],
   "note": "the functions are those of the pool models with the token transfer as a parameter; with the repository's transfer they are the same functions (lemmas swap_with_own, ...)"
  },
  {
   "property": "C140",
   "status": "proved",
   "theorems": [
    "C140_taxed_swap_pays_for_the_offer",
    "C140_swap_pays_for_what_arrives_refuted"
   ],
   "note": "The property is false of the code; the theorem refutes it with a reachable state. do_swap measures what arrives but computes the output from the amount offered: the product of the reserves falls by the fee times the remaining reserve."
  },
  {
   "property": "C141",
   "status": "proved",
   "theorems": [
    "C141_taxed_creation_underfunds",
    "C141_taxed_distribution_underfunds",
    "C141_recorded_amounts_arrive_refuted"
   ],
   "note": "The property is false of the code; the theorem refutes it with a reachable state. With a token that charges a fee on transfer both contracts record the full amount and hold the fee less; the last claims cannot be paid."
  },
  {
   "property": "C142",
   "status": "proved",
   "theorems": [
    "C142_swaps_need_huge_offers",
    "C142_no_swap_passes_the_spread_limit",
    "C142_decimals_handled_refuted"
   ],
   "note": "The property is false of the code; the theorem refutes it with a reachable state. compute_swap scales the offered token and the computed reserve with the larger number of decimals instead of each token's own. With different decimals a balanced pool serves no swap at all: the offer would have to exceed the output by nine times the reserve of the token with fewer decimals."
  },
  {
   "property": "C143",
   "status": "proved",
   "theorems": [
    "C143_splitting_gains_little"
   ],
   "note": ""
  },
  {
   "property": "C144",
   "status": "proved",
   "theorems": [
    "C144_free_swaps",
    "C144_fees_follow_volume_refuted"
   ],
   "note": "The property is false of the code; the theorem refutes it with a reachable state. The commission is rounded down: it is 0 exactly when gross output times fee is below 10000."
  },
  {
   "property": "C145",
   "status": "proved",
   "theorems": [
    "C145_spread_is_subtracted",
    "C145_small_swaps_refuted"
   ],
   "note": "The property is false of the code; the theorem refutes it with a reachable state. The gross output is rounded up and the output at the spot price down; the checked subtraction of the two fails for small amounts. In a pool of 1000000 and 300000 tokens (7 decimals) every swap of at most 0.1 token fails, whatever the caller passes."
  },
  {
   "property": "C146",
   "status": "proved",
   "theorems": [
    "C146_pool_config",
    "C146_pool_code",
    "C146_pool_upgrade",
    "C146_stable_config",
    "C146_stable_code",
    "C146_stake_flow",
    "C146_stake_code",
    "C146_rewards_code",
    "C146_vest_minter",
    "C146_vest_capacity",
    "C146_vest_code",
    "C146_whitelist",
    "C146_hashes",
    "C146_factory_code",
    "C146_router_code",
    "C146_token_admin"
   ],
   "note": ""
  },
  {
   "property": "C147",
   "status": "proved",
   "theorems": [
    "C147_pool_init",
    "C147_stable_init",
    "C147_stake_init",
    "C147_rewards_init",
    "C147_vest_init",
    "C147_factory_init",
    "C147_router_init",
    "C147_trader_init",
    "C147_deployments"
   ],
   "note": ""
  },
  {
   "property": "C148",
   "status": "proved",
   "theorems": [
    "C148_add_user",
    "C148_bond",
    "C148_withdraw",
    "C148_withdraw_effect",
    "C148_query",
    "C148_unbond",
    "C148_unbond_effect",
    "C148_distribute",
    "C148_fund",
    "C148_fund_effect",
    "C148_undistributed"
   ],
   "note": ""
  },
  {
   "property": "C149",
   "status": "proved",
   "theorems": [
    "C149_trader_transfer",
    "C149_trader_transfer_effect",
    "C149_vest_burn",
    "C149_vest_burn_effect"
   ],
   "note": ""
  },
  {
   "property": "C150",
   "status": "proved",
   "theorems": [
    "C150_stable_deposit_succeeds_iff",
    "C150_stable_deposit_effect"
   ],
   "note": "the invariant is the result of compute_d itself, characterised by C33 and C82"
  },
  {
   "property": "C151",
   "status": "proved",
   "theorems": [
    "C151_allowances_and_metadata"
   ],
   "note": ""
  },
  {
   "property": "C152",
   "status": "proved",
   "theorems": [
    "C152_token_call_effects"
   ],
   "note": ""
  },
  {
   "property": "C153",
   "status": "proved",
   "theorems": [
    "C153_withdrawal_effect",
    "C153_deposit_effect",
    "C153_stable_withdrawal_effect"
   ],
   "note": ""
  },
  {
   "property": "C154",
   "status": "proved",
   "theorems": [
    "C154_bond_effect",
    "C154_unbond_effect",
    "C154_distribute_effect",
    "C154_withdraw_rewards_effect"
   ],
   "note": ""
  },
  {
   "property": "C155",
   "status": "proved",
   "theorems": [
    "C155_claim_effect",
    "C155_creation_effect",
    "C155_mint_effect"
   ],
   "note": ""
  },
  {
   "property": "C156",
   "status": "proved",
   "theorems": [
    "C156_xyk_creation_effect",
    "C156_stable_creation_effect"
   ],
   "note": ""
  },
  {
   "property": "C157",
   "status": "proved",
   "theorems": [
    "C157_every_payout",
    "C157_lost_tokens",
    "C157_pool_stray_tokens",
    "C157_stake_stray_tokens"
   ],
   "note": "Tokens are the project's own token contract; the staking contract of stake_rewards is an account in the model's signature sense (see DESIGN)."
  },
  {
   "property": "C158",
   "status": "proved",
   "theorems": [
    "C158_share_value_over_history",
    "C158_trading_adds_nothing"
   ],
   "note": "The bound M must hold before each transaction of the history; total_visits counts the swaps made in the pool."
  },
  {
   "property": "C159",
   "status": "proved",
   "theorems": [
    "C159_fees_reach_providers_refuted",
    "C158_trading_adds_nothing"
   ],
   "note": "The property is false of the code; the theorem refutes it with a reachable state. the whole fee goes to the fee recipient and rounding favours the trader by less than one unit, so the product falls; C158_trading_adds_nothing shows it never rises over any history of swaps."
  },
  {
   "property": "C160",
   "status": "proved",
   "theorems": [
    "C160_stable_trading_never_profits",
    "C160_stable_round_trip",
    "C160_stable_value_over_history"
   ],
   "note": "Tokens with different decimals are priced wrongly (C142) and are excluded; deposits into extremely uneven reserves, where D leaves their sum (C82), are excluded in the last theorem only."
  },
  {
   "property": "C161",
   "status": "proved",
   "theorems": [
    "C161_recording_changes_nothing",
    "C161_log_is_determined",
    "C161_token_books_are_the_events"
   ],
   "note": ""
  },
  {
   "property": "C162",
   "status": "proved",
   "theorems": [
    "C162_swap_events",
    "C162_stable_swap_events"
   ],
   "note": ""
  },
  {
   "property": "C163",
   "status": "proved",
   "theorems": [
    "C163_deposit_events",
    "C163_withdrawal_events",
    "C163_stable_deposit_events",
    "C163_stable_withdrawal_events"
   ],
   "note": ""
  },
  {
   "property": "C164",
   "status": "proved",
   "theorems": [
    "C164_staking_books_are_the_events"
   ],
   "note": ""
  },
  {
   "property": "C165",
   "status": "proved",
   "theorems": [
    "C165_registry_is_the_events"
   ],
   "note": ""
  },
  {
   "property": "C166",
   "status": "proved",
   "theorems": [
    "C166_rewards_books_are_the_events"
   ],
   "note": ""
  },
  {
   "property": "C167",
   "status": "proved",
   "theorems": [
    "C167_minter_is_the_events"
   ],
   "note": "Until the first update event the minter given at initialisation is not known from the events (its initialize event names only the admin); the theorem speaks about what has been announced."
  },
  {
   "property": "C168",
   "status": "proved",
   "theorems": [
    "C168_route_events"
   ],
   "note": ""
  },
  {
   "property": "C169",
   "status": "proved",
   "theorems": [
    "C169_settings_change_silently_refuted",
    "C169_silent_calls"
   ],
   "note": "The property is false of the code; the theorem refutes it with a reachable state. no settings call publishes anything; two histories with identical logs differ in fee, fee recipient and admin."
  },
  {
   "property": "C170",
   "status": "proved",
   "theorems": [
    "C170_pool_events_miss_reserves_refuted"
   ],
   "note": "The property is false of the code; the theorem refutes it with a reachable state. tokens sent to the pool enter the reserves at the next deposit, whose events are the same as without them."
  },
  {
   "property": "C171",
   "status": "proved",
   "theorems": [
    "C171_events_miss_allowances_refuted"
   ],
   "note": "The property is false of the code; the theorem refutes it with a reachable state. transfer_from publishes the same event as transfer and does not name the spender."
  },
  {
   "property": "C172",
   "status": "proved",
   "theorems": [
    "C172_events_miss_schedules_refuted"
   ],
   "note": "The property is false of the code; the theorem refutes it with a reachable state. creating schedules publishes only the token transfer."
  },
  {
   "property": "C173",
   "status": "proved",
   "theorems": [
    "C173_events_miss_pool_type_refuted"
   ],
   "note": "The property is false of the code; the theorem refutes it with a reachable state. the stable pool publishes the initialize events of the constant-product pool."
  },
  {
   "property": "C174",
   "status": "proved",
   "theorems": [
    "C174_D_computed_iff",
    "C174_y_computed_iff",
    "C174_D_failure_is_overflow",
    "C174_y_failure_is_overflow"
   ],
   "note": "Exact success conditions; the errors 13 (NewtonMethodFailed) and 14 (CalcYErr) do not occur."
  },
  {
   "property": "C175",
   "status": "proved",
   "theorems": [
    "C175_capacity",
    "C175_deposit_succeeds"
   ],
   "note": ""
  },
  {
   "property": "C176",
   "status": "proved",
   "theorems": [
    "C176_balanced_new_reserve",
    "C176_balanced_pool_quotes",
    "C176_balanced_swap_succeeds"
   ],
   "note": ""
  },
  {
   "property": "C177",
   "status": "proved",
   "theorems": [
    "C177_recording_changes_nothing",
    "C177_exact_signers"
   ],
   "note": "The demands are recorded by a second version of every entry point (Asks.v), proved equal to the model in effect (AsksErase.v)."
  },
  {
   "property": "C178",
   "status": "proved",
   "theorems": [
    "C178_demands"
   ],
   "note": "The relation Demands lists the demands call by call. The rule of the host that an account may be asked only once per frame is treated in C214."
  },
  {
   "property": "C179",
   "status": "proved",
   "theorems": [
    "C179_signatures_last"
   ],
   "note": ""
  },
  {
   "property": "C180",
   "status": "proved",
   "theorems": [
    "C180_deposit_signature_lasts_refuted",
    "C180_deposit_signature_good_iff"
   ],
   "note": "The property is false of the code; the theorem refutes it with a reachable state. the pool computes the amounts from the current reserves and has the user sign transfers of exactly these; after a trade of 0.2% the demanded transfer differs from the signed one although the deposit is within its tolerance. The exact condition is proved."
  },
  {
   "property": "C181",
   "status": "proved",
   "theorems": [
    "C181_route_signature_lasts_refuted"
   ],
   "note": "The property is false of the code; the theorem refutes it with a reachable state. the second leg is signed with the exact amount the first leg returned."
  },
  {
   "property": "C182",
   "status": "proved",
   "theorems": [
    "C182_only_pulled_to_itself"
   ],
   "note": ""
  },
  {
   "property": "C183",
   "status": "proved",
   "theorems": [
    "C183_unsigned_calls",
    "C183_third_parties"
   ],
   "note": ""
  },
  {
   "property": "C184",
   "status": "proved",
   "theorems": [
    "C184_recording_accesses_changes_nothing"
   ],
   "note": "Touch.v repeats every entry point with its storage accesses; TouchErase.v erases them."
  },
  {
   "property": "C185",
   "status": "proved",
   "theorems": [
    "C185_lifetimes_follow_the_ledger",
    "C185_only_lapsed_entries_stop_a_call"
   ],
   "note": ""
  },
  {
   "property": "C186",
   "status": "proved",
   "theorems": [
    "C186_lifetimes_never_shrink"
   ],
   "note": ""
  },
  {
   "property": "C187",
   "status": "proved",
   "theorems": [
    "C187_used_entries_live_29_days"
   ],
   "note": ""
  },
  {
   "property": "C188",
   "status": "proved",
   "theorems": [
    "C188_touched_contracts_live_6_days"
   ],
   "note": "The excepted calls read instances without extending them (example C188_update_does_not_extend)."
  },
  {
   "property": "C189",
   "status": "proved",
   "theorems": [
    "C189_used_rewards_never_lapse_refuted",
    "C189_reward_books_are_never_extended",
    "C189_reward_books_are_born_short",
    "C189_lapsed_rewards_lock_every_user_out"
   ],
   "note": "The property is false of the code; the theorem refutes it with a reachable state. no call ever extends the curve, the distribution or the adjustments of stake_rewards. They live for the network's minimum from their creation; then every user is locked out of bonding, unbonding and withdrawing until somebody restores them."
  },
  {
   "property": "C190",
   "status": "proved",
   "theorems": [
    "C190_traded_pools_pay_out_refuted",
    "C190_swaps_do_not_keep_the_share_total_alive",
    "C190_lapsed_share_total_blocks_liquidity"
   ],
   "note": "The property is false of the code; the theorem refutes it with a reachable state. only deposits, withdrawals and creation touch the share total; a pool with swaps alone lets it lapse after 30 days and then refuses deposits and withdrawals until it is restored, while swaps go on. A query of the pool submitted as a transaction also reads and extends the total; that is an extension by somebody, which the model has as an event of its own."
  },
  {
   "property": "C191",
   "status": "proved",
   "theorems": [
    "C191_archival_is_never_permanent"
   ],
   "note": ""
  },
  {
   "property": "C192",
   "status": "proved",
   "theorems": [
    "C192_used_entries_survive_29_days"
   ],
   "note": ""
  },
  {
   "property": "C193",
   "status": "proved",
   "theorems": [
    "C193_lapsed_schedule_stops_new_grants"
   ],
   "note": "A weakness of the code, proved as it is."
  },
  {
   "property": "C194",
   "status": "proved",
   "theorems": [
    "C194_stakers_only_need_their_own_records",
    "C194_claimants_only_need_their_own_schedule"
   ],
   "note": ""
  },
  {
   "property": "C195",
   "status": "proved",
   "theorems": [
    "C195_stake_records_grow_only_by_those_who_pay"
   ],
   "note": ""
  },
  {
   "property": "C196",
   "status": "proved",
   "theorems": [
    "C196_schedules_grow_only_by_the_admin",
    "C196_schedules_stay_small"
   ],
   "note": ""
  },
  {
   "property": "C197",
   "status": "proved",
   "theorems": [
    "C197_reward_curve_stays_small"
   ],
   "note": ""
  },
  {
   "property": "C198",
   "status": "proved",
   "theorems": [
    "C198_pool_list_grows_only_by_whitelisted_creators",
    "C198_pool_list_counts_creations"
   ],
   "note": ""
  },
  {
   "property": "C199",
   "status": "proved",
   "theorems": [
    "C199_calls_touch_few_entries"
   ],
   "note": "Upper bound by adding up the accesses of each step; not claimed to be attained. Code and instance of a contract count as one entry."
  },
  {
   "property": "C200",
   "status": "proved",
   "theorems": [
    "C200_withdraw_rewards_entries",
    "C200_route_entries",
    "C200_vest_create_entries"
   ],
   "note": ""
  },
  {
   "property": "C201",
   "status": "proved",
   "theorems": [
    "C201_calls_touch_boundedly_many_entries_refuted"
   ],
   "note": "The property is false of the code; the theorem refutes it with a reachable state. a withdrawal of staking rewards visits every reward token, flows cannot be removed and there is no way to withdraw a single token's rewards; for every n some reachable contract has n tokens (added by its manager, C195) and every withdrawal then touches at least n entries. Beyond the network's limit nobody can withdraw rewards any more; unbonding is not affected (C199)."
  },
  {
   "property": "C202",
   "status": "proved",
   "theorems": [
    "C202_changes_recorded",
    "C202_balances"
   ],
   "note": "Entries are compared by the content that storage holds (Footprint.v: same); allowances, which are temporary entries, are counted with the token's instance. The instance entry of a loaded contract may change without being listed as written."
  },
  {
   "property": "C203",
   "status": "proved",
   "theorems": [
    "C203_depends_on_touched"
   ],
   "note": "Lemma depends (same file) is the version for arbitrary, also unreachable, second ledgers."
  },
  {
   "property": "C204",
   "status": "proved",
   "theorems": [
    "C204_independent_commute",
    "C204_disjoint_commute"
   ],
   "note": "Swaps in one pool do not commute (Example C204_same_pool)."
  },
  {
   "property": "C205",
   "status": "proved",
   "theorems": [
    "C205_queries_change_nothing",
    "C205_queries_answer_as_modelled"
   ],
   "note": "Queries.v; erasure of the record in QueriesErase.v."
  },
  {
   "property": "C206",
   "status": "proved",
   "theorems": [
    "C206_answers_depend_on_reads"
   ],
   "note": "The ledgers need not be reachable."
  },
  {
   "property": "C207",
   "status": "proved",
   "theorems": [
    "C207_answers_stay_good"
   ],
   "note": "Queries outside `timeless` are covered as long as the clock stands."
  },
  {
   "property": "C208",
   "status": "proved",
   "theorems": [
    "C208_only_lapsed_entries_stop_a_query",
    "C208_queries_can_be_restored"
   ],
   "note": ""
  },
  {
   "property": "C209",
   "status": "proved",
   "theorems": [
    "C209_listing_does_not_depend_on_idle_pools_refuted",
    "C209_one_lapsed_pool_stops_the_listing"
   ],
   "note": "The property is false of the code; the theorem refutes it with a reachable state. the listing and every portfolio call every pool ever created; one idle pool whose instance has lapsed (a constant-product pool that was created and never used lapses after the network's minimum) stops both for everybody, until somebody restores that pool."
  },
  {
   "property": "C210",
   "status": "proved",
   "theorems": [
    "C210_listing_is_exact"
   ],
   "note": ""
  },
  {
   "property": "C211",
   "status": "proved",
   "theorems": [
    "C211_undistributed_rewards"
   ],
   "note": "The token contract must exist; nothing checks that when a rewards contract is initialised."
  },
  {
   "property": "C212",
   "status": "proved",
   "theorems": [
    "C212_never_extended_by_queries",
    "C212_all_others_can_be_kept_by_queries"
   ],
   "note": ""
  },
  {
   "property": "C213",
   "status": "proved",
   "theorems": [
    "C213_announced_reserves_are_held",
    "C213_announced_shares_are_the_same",
    "C213_announced_stakes_add_up",
    "C213_announced_vesting_is_covered"
   ],
   "note": ""
  },
  {
   "property": "C214",
   "status": "proved",
   "theorems": [
    "C214_repeated_demands",
    "C214_inner_frames",
    "C214_others_unaffected"
   ],
   "note": "Closes a simplification of the signature model: the host's rule is stated as `accepted`."
  },
  {
   "property": "C215",
   "status": "proved",
   "theorems": [
    "C215_pending_reward_stops_unbonding_refuted",
    "C215_unbond_accepted",
    "C215_fund_accepted"
   ],
   "note": "The property is false of the code; the theorem refutes it with a reachable state. withdraw_rewards, which calculate_unbond calls in the same frame, demands the staking address a second time. Unbonding is accepted exactly if nothing is due (and the user is not the staking address); at a partial multiplier a withdrawal leaves something due, so that several are needed first. A staking contract that calls as direct invoker is not affected."
  },
  {
   "property": "C216",
   "status": "proved",
   "theorems": [
    "C216_shortfall_bounded",
    "C216_shares_out_of_reach"
   ],
   "note": "Clawback is host code of Stellar assets (Claw.v states what is assumed of it). Staking contracts are covered when the bonded token is not also a reward token (see C23)."
  },
  {
   "property": "C217",
   "status": "proved",
   "theorems": [
    "C217_deposit_refills"
   ],
   "note": ""
  },
  {
   "property": "C218",
   "status": "proved",
   "theorems": [
    "C218_deposit_for_nothing_refuted"
   ],
   "note": "The property is false of the code; the theorem refutes it with a reachable state. after a clawback a deposit of exactly the missing amount of one token (and the matching one of the other) is accepted and earns nothing."
  },
  {
   "property": "C219",
   "status": "proved",
   "theorems": [
    "C219_first_come_first_served_refuted"
   ],
   "note": "The property is false of the code; the theorem refutes it with a reachable state. withdrawals are paid from the booked reserves; the first provider withdraws the full booked half, the last cannot withdraw at all."
  },
  {
   "property": "C220",
   "status": "proved",
   "theorems": [
    "C220_distribution_needs_cover"
   ],
   "note": "Total stake of at least 1000 and the minimum bond (below there is no power and nothing is distributed)."
  },
  {
   "property": "C221",
   "status": "proved",
   "theorems": [
    "C221_swap_needs",
    "C221_stable_swap_needs",
    "C221_route_needs"
   ],
   "note": "Refusals are host code (Frozen.v states what is assumed)."
  },
  {
   "property": "C222",
   "status": "proved",
   "theorems": [
    "C222_fee_recipient_stops_trading_refuted"
   ],
   "note": "The property is false of the code; the theorem refutes it with a reachable state. the commission is sent even if it is zero; one frozen fee recipient stops all purchases of that token until the admin names another."
  },
  {
   "property": "C223",
   "status": "proved",
   "theorems": [
    "C223_liquidity_needs",
    "C223_stable_liquidity_needs",
    "C223_rewards_need",
    "C223_unbonding_needs"
   ],
   "note": ""
  },
  {
   "property": "C224",
   "status": "proved",
   "theorems": [
    "C224_one_asset_stops_all_rewards_refuted"
   ],
   "note": "The property is false of the code; the theorem refutes it with a reachable state. withdraw_rewards sends every registered asset, zero amounts included; one asset that refuses the user stops all their rewards."
  },
  {
   "property": "C225",
   "status": "proved",
   "theorems": [
    "C225_shares_can_be_passed_on"
   ],
   "note": ""
  },
  {
   "property": "C226",
   "status": "proved",
   "theorems": [
    "C226_more_in_more_out"
   ],
   "note": ""
  },
  {
   "property": "C227",
   "status": "proved",
   "theorems": [
    "C227_going_second"
   ],
   "note": ""
  },
  {
   "property": "C228",
   "status": "proved",
   "theorems": [
    "C228_sandwich_bounded"
   ],
   "note": "The bound is in terms of the pool's state and the victim's trade; the fees only lower the gain."
  },
  {
   "property": "C229",
   "status": "proved",
   "theorems": [
    "C229_deposit_is_worth_its_cost"
   ],
   "note": ""
  },
  {
   "property": "C230",
   "status": "proved",
   "theorems": [
    "C230_depositors_keep_their_share_refuted"
   ],
   "note": "The property is false of the code; the theorem refutes it with a reachable state. C78 carried to the end: the first depositor owns both shares, donates, and withdraws the next depositor's 20 million of each token; no minimum liquidity was locked (C34) and zero shares are accepted."
  },
  {
   "property": "C231",
   "status": "proved",
   "theorems": [
    "C231_more_in_more_out_on_routes"
   ],
   "note": ""
  },
  {
   "property": "C232",
   "status": "proved",
   "theorems": [
    "C232_stable_more_in_hardly_less_out"
   ],
   "note": ""
  },
  {
   "property": "C233",
   "status": "proved",
   "theorems": [
    "C233_stable_more_in_more_out_refuted"
   ],
   "note": "The property is false of the code; the theorem refutes it with a reachable state. the iteration stops at a difference of 10^12; in a pool of 137 and 1660 units, offering one unit more brings one unit less (C232 bounds the effect)."
  },
  {
   "property": "C234",
   "status": "proved",
   "theorems": [
    "C234_hostile_swap"
   ],
   "note": "The harmful token is an arbitrary function on the ledger; that it leaves the pool alone is the host's ban on reentry, an assumption discharged for programs of calls in C236."
  },
  {
   "property": "C235",
   "status": "proved",
   "theorems": [
    "C235_hostile_withdrawal",
    "C235_hostile_deposit"
   ],
   "note": ""
  },
  {
   "property": "C236",
   "status": "proved",
   "theorems": [
    "C236_nothing_else_reaches_the_pool",
    "C236_scripts_are_confined"
   ],
   "note": ""
  },
  {
   "property": "C237",
   "status": "proved",
   "theorems": [
    "C237_hostile_stable_swap",
    "C237_hostile_stable_withdrawal",
    "C237_hostile_stable_deposit"
   ],
   "note": ""
  },
  {
   "property": "C238",
   "status": "proved",
   "theorems": [
    "C238_no_dilution_by_a_bad_token_refuted"
   ],
   "note": "The property is false of the code; the theorem refutes it with a reachable state. one reported balance is enough to mint a third of all shares for one unit of each token; they pay out a third of the honest reserve. Constant-product pools are safe (C235)."
  },
  {
   "property": "C239",
   "status": "proved",
   "theorems": [
    "C239_swap_errors",
    "C239_deposit_errors",
    "C239_withdraw_errors",
    "C239_other_errors"
   ],
   "note": "For calls made directly by a transaction; each named code has a concrete case."
  },
  {
   "property": "C240",
   "status": "proved",
   "theorems": [
    "C240_swap_errors",
    "C240_deposit_errors",
    "C240_withdraw_errors",
    "C240_other_errors"
   ],
   "note": "For calls made directly by a transaction. The 64 rounds of both Newton loops are never used up, so NewtonMethodFailed and CalcYErr are not reported."
  },
  {
   "property": "C241",
   "status": "proved",
   "theorems": [
    "C241_vesting_claim_errors",
    "C241_vesting_create_errors",
    "C241_vesting_other_errors",
    "C241_stake_errors",
    "C241_stake_init_errors",
    "C241_rewards_fund_errors",
    "C241_rewards_other_errors"
   ],
   "note": "Each named code has a concrete case. Of the reward contract's codes RewardsInvalid is never reported."
  },
  {
   "property": "C242",
   "status": "proved",
   "theorems": [
    "C242_create_errors",
    "C242_factory_other_errors",
    "C242_trade_errors",
    "C242_trader_other_errors",
    "C242_route_errors",
    "C242_router_other_errors"
   ],
   "note": "The reasons of the pools are those of C239 and C240, proved for swaps from any caller."
  },
  {
   "property": "C243",
   "status": "proved",
   "theorems": [
    "C243_claim_code_refuted",
    "C243_low_liquidity_refuted",
    "C243_route_code_refuted"
   ],
   "note": "The property is false of the code; the theorem refutes it with a reachable state. a claim on a schedule that is paid out in full reports NeverFullyVested; a first stable deposit below the minimum overflows instead of reporting LowLiquidity; code 19 of a route is a missed deadline at a stable pool and an invalid spread limit at the other pool."
  },
  {
   "property": "C244",
   "status": "proved",
   "theorems": [
    "C244_more_and_older_earns_more",
    "C244_splitting_gains_nothing",
    "C244_splitting_costs_little"
   ],
   "note": "claimable is the answer of query_withdrawable_rewards, which withdraw_rewards pays (C39)."
  },
  {
   "property": "C245",
   "status": "proved",
   "theorems": [
    "C245_claiming_early_changes_nothing"
   ],
   "note": "Comparison within one history, with a twin that does not claim."
  },
  {
   "property": "C246",
   "status": "proved",
   "theorems": [
    "C246_claim_in_the_second_of_a_distribution_refuted"
   ],
   "note": "The property is false of the code; the theorem refutes it with a reachable state. a stranger sends withdraw_rewards for a staker just before a distribution of the same second; last_reward_time is then that second and the staker never gets a share of it."
  },
  {
   "property": "C247",
   "status": "proved",
   "theorems": [
    "C247_one_deposit_is_best",
    "C247_one_withdrawal_is_nearly_best"
   ],
   "note": "Constant-product pool; calls that may swap in the pool are left out of the compared history, since they move the reserves."
  },
  {
   "property": "C248",
   "status": "proved",
   "theorems": [
    "C248_route_there_and_back",
    "C248_stable_route_there_and_back"
   ],
   "note": "Uses the round trips of single swaps (C20, C160) and that both legs find the same pool."
  },
  {
   "property": "C249",
   "status": "proved",
   "theorems": [
    "C249_one_stable_withdrawal_is_nearly_best",
    "C249_leaving_a_stable_pool_later_costs_nothing",
    "C249_leaving_later_costs_nothing"
   ],
   "note": "Lower bounds on the payout of a withdrawal that succeeds; when withdrawals succeed is C120 and C127."
  },
  {
   "property": "C250",
   "status": "proved",
   "theorems": [
    "C250_routes_over_stable_pools_do_not_beat_par"
   ],
   "note": "By induction on the legs with the single swap of C160."
  },
  {
   "property": "C251",
   "status": "proved",
   "theorems": [
    "C251_quotes_do_not_see_the_order",
    "C251_swaps_do_not_see_the_order",
    "C251_deposits_do_not_see_the_order",
    "C251_withdrawals_do_not_see_the_order",
    "C251_stable_quotes_do_not_see_the_order",
    "C251_stable_swaps_do_not_see_the_order",
    "C251_stable_deposits_do_not_see_the_order",
    "C251_stable_withdrawals_do_not_see_the_order"
   ],
   "note": "The two swaps, deposits or withdrawals are assumed to go through."
  },
  {
   "property": "C252",
   "status": "proved",
   "theorems": [
    "C252_trading_around_others_does_not_pay"
   ],
   "note": "By induction on the trader's swaps; the commission is the one quoted in the state of the swap."
  },
  {
   "property": "C253",
   "status": "proved",
   "theorems": [
    "C253_withdrawals_keep_the_price",
    "C253_stable_withdrawals_keep_the_price"
   ],
   "note": "Deposits are left out: one that follows a donation moves the price by the donation (C73)."
  },
  {
   "property": "C254",
   "status": "proved",
   "theorems": [
    "C254_credited_rewards_stay"
   ],
   "note": "The exception for the current second is needed: C255, and C43 for the same token."
  },
  {
   "property": "C255",
   "status": "proved",
   "theorems": [
    "C255_credited_rewards_stay_in_the_same_second_refuted"
   ],
   "note": "The property is false of the code; the theorem refutes it with a reachable state. the total stake of a second is recorded once for all reward tokens; a bond of 9000 and the distribution of one unit of another token in the same second leave 24 of 208 claimable units."
  },
  {
   "property": "C256",
   "status": "proved",
   "theorems": [
    "C256_young_stakes_earn_nothing"
   ],
   "note": "The age counts in whole days."
  },
  {
   "property": "C257",
   "status": "proved",
   "theorems": [
    "C257_who_earns_nothing_takes_nothing_refuted"
   ],
   "note": "The property is false of the code; the theorem refutes it with a reachable state. a stake counts in the total from its first second but earns from its second day only; a bond of 9000 just before a distribution of 1003 takes 225 of 250 units from each of two stakers and the units stay in the contract."
  },
  {
   "property": "C258",
   "status": "proved",
   "theorems": [
    "C258_limits_bound_the_loss",
    "C258_limits_bound_the_loss_stable"
   ],
   "note": "The value is rounded down to whole units; the limit on the spread is exact to 10^-18."
  },
  {
   "property": "C259",
   "status": "proved",
   "theorems": [
    "C259_spread_limit_bounds_the_loss_refuted"
   ],
   "note": "The property is false of the code; the theorem refutes it with a reachable state. a stranger sets the commission of a stable pool to 100% and makes themselves its recipient without any signature (C32); a swap without a commission limit then pays nothing."
  },
  {
   "property": "C260",
   "status": "proved",
   "theorems": [
    "C260_approvals_bound_what_is_taken"
   ],
   "note": "Extends C03 over approvals."
  },
  {
   "property": "C261",
   "status": "proved",
   "theorems": [
    "C261_changed_allowance_bounds_refuted"
   ],
   "note": "The property is false of the code; the theorem refutes it with a reachable state. the new amount replaces what is left, not what was granted: a spender who acts before a change from 300 to 100 takes 400."
  },
  {
   "property": "C262",
   "status": "proved",
   "theorems": [
    "C262_limits_of_a_route_bound_the_loss"
   ],
   "note": "By induction on the legs with the single swap of C258; no condition on the decimals."
  }
 ]
}