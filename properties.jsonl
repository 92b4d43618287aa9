{"id": "C01", "title": "Token supply is conserved", "statement": "The sum of all balances of a token equals everything ever minted minus everything ever burned; transfers, approvals and failed calls never change it.", "quantifier": "every sequence of token calls by any callers with any amounts, from an empty token", "why_tests_cant": "the claim sums over all holders and all histories", "anchors": ["contracts/token/src/contract.rs: mint, burn, burn_from, transfer, transfer_from", "contracts/token/src/balance.rs: spend_balance, receive_balance"]}
{"id": "C02", "title": "Only the owner or an approved spender can reduce a balance", "statement": "If a call lowers an account's balance then that account authorised the call, or the caller authorised it as a spender holding a live allowance of at least the amount removed.", "quantifier": "every state, every token call, every account", "why_tests_cant": "needs all callers, amounts and allowance states", "anchors": ["contracts/token/src/contract.rs: transfer, transfer_from, burn, burn_from"]}
{"id": "C03", "title": "Allowances bound what a spender can take", "statement": "Between two approvals a spender can pull (transfer_from plus burn_from together) at most the approved amount, and nothing once the allowance has expired.", "quantifier": "every sequence of calls between two approvals of the same owner/spender pair", "why_tests_cant": "histories of partial spends, interleaved with other accounts, are unbounded", "anchors": ["contracts/token/src/allowance.rs: read_allowance, spend_allowance", "contracts/token/src/contract.rs: approve, transfer_from, burn_from"]}
{"id": "C04", "title": "Balances stay inside 0..i128::MAX", "statement": "No account ever has a negative balance or one that does not fit in i128.", "quantifier": "every history", "why_tests_cant": "all amounts and orders", "anchors": ["contracts/token/src/balance.rs"]}
{"id": "C05", "title": "Only the token admin mints or hands over admin rights", "statement": "A call that mints, or that changes the stored admin, is authorised by the admin stored before the call.", "quantifier": "every state and call", "why_tests_cant": "all callers", "anchors": ["contracts/token/src/contract.rs: mint, set_admin", "contracts/token/src/admin.rs"]}
{"id": "C06", "title": "Pool solvency", "statement": "The reserves a constant-product pool reports never exceed the tokens it actually holds.", "quantifier": "every reachable system state: any number of tokens, pools, stakes and vestings, any interleaving of calls including direct transfers and failed calls", "why_tests_cant": "interleavings across contracts sharing tokens are unbounded", "anchors": ["contracts/pool/src/contract.rs: provide_liquidity, withdraw_liquidity, do_swap", "contracts/pool/src/storage.rs: utils"]}
{"id": "C07", "title": "LP supply bookkeeping", "statement": "The LP total reported by a pool is at least the sum of all LP-token balances, and equals it as long as no holder burned LP tokens directly at the token contract.", "quantifier": "every reachable system state", "why_tests_cant": "sums over all holders and all histories", "anchors": ["contracts/pool/src/storage.rs: mint_shares, burn_shares", "contracts/pool/src/contract.rs: query_total_issued_lp"]}
{"id": "C08", "title": "Minimum liquidity is locked for ever", "statement": "From the first deposit on, the pool contract itself owns at least 1000 LP shares and reports a total of at least 1000.", "quantifier": "every reachable state after the first deposit", "why_tests_cant": "for every later history", "anchors": ["contracts/pool/src/contract.rs: provide_liquidity (MINIMUM_LIQUIDITY_AMOUNT)"]}
{"id": "C09", "title": "Withdrawal pays at most the pro-rata share", "statement": "Burning s of T shares pays at most reserve*s/T of each token, at least the requested minimum, and never lowers reserve-per-share of the remaining holders; the payout misses the exact share by less than one unit plus reserve/10^18.", "quantifier": "all reserves, totals, share amounts", "why_tests_cant": "all rounding combinations", "anchors": ["contracts/pool/src/contract.rs: withdraw_liquidity", "packages/decimal/src/decimal.rs: from_ratio, Mul<Decimal> for i128"]}
{"id": "C10", "title": "Deposits never dilute existing holders", "statement": "After a deposit into a funded pool, reserve per share of both tokens is at least what it was before.", "quantifier": "all states and amounts, including pools that hold donated tokens", "why_tests_cant": "all rounding combinations and donation histories", "anchors": ["contracts/pool/src/contract.rs: provide_liquidity"]}
{"id": "C11", "title": "Constant product up to rounding", "statement": "A swap moves reserves from (x,y) to (x+dx,y') with x*y-(x+dx) < (x+dx)*y' <= x*y.", "quantifier": "all reserves, offers, fees", "why_tests_cant": "all rounding combinations", "anchors": ["contracts/pool/src/contract.rs: compute_swap, do_swap"]}
{"id": "C12", "title": "A swap never lowers the product of reserves", "statement": "After any swap the product of the two reserves is at least what it was.", "quantifier": "all states and offers", "why_tests_cant": "needs the worst case over all reserves", "anchors": ["contracts/pool/src/contract.rs: compute_swap"]}
{"id": "C13", "title": "Swap price never beats the spot price", "statement": "The gross amount leaving the pool for dx is at most dx*y/x and at most y; the reported spread is exactly floor(dx*y/x) minus the gross amount.", "quantifier": "all reserves, offers, fees", "why_tests_cant": "all inputs", "anchors": ["contracts/pool/src/contract.rs: compute_swap"]}
{"id": "C14", "title": "Swap settlement is exact", "statement": "A successful swap takes exactly the offer from the sender, pays the sender exactly the returned amount, pays the fee recipient floor(gross*fee_bps/10000), lowers the bought reserve by their sum, raises the sold reserve by the offer and touches no other account or token.", "quantifier": "all states, callers and arguments", "why_tests_cant": "must hold for every account not involved", "anchors": ["contracts/pool/src/contract.rs: do_swap"]}
{"id": "C15", "title": "Swap guards are enforced", "statement": "A successful swap ran no later than the deadline, paid at least the minimum asked, charged a fee no larger than the fee the user agreed to, and its spread ratio stays within the given limit which itself is within the pool limit.", "quantifier": "all arguments and states", "why_tests_cant": "all guard combinations", "anchors": ["contracts/pool/src/contract.rs: swap, do_swap, assert_max_spread"]}
{"id": "C16", "title": "Quote equals execution", "statement": "If simulate_swap answers r in some state then every swap of the same amount that succeeds in that state returns exactly r.ask_amount and charges r.commission_amount.", "quantifier": "all states and amounts", "why_tests_cant": "all inputs", "anchors": ["contracts/pool/src/contract.rs: simulate_swap, do_swap"]}
{"id": "C17", "title": "Reverse quote is sufficient", "statement": "Swapping the offer amount quoted by simulate_reverse_swap for an ask amount yields at least that ask amount.", "quantifier": "all states and ask amounts", "why_tests_cant": "needs the worst rounding case", "anchors": ["contracts/pool/src/contract.rs: simulate_reverse_swap, compute_offer_amount"]}
{"id": "C18", "title": "Deposit bounds are respected", "statement": "A successful deposit takes at most the desired and at least the minimum amount of each token from the sender (as long as a minimum above the desired amount is not asked of a first deposit), and nobody else pays.", "quantifier": "all states and arguments", "why_tests_cant": "all inputs", "anchors": ["contracts/pool/src/contract.rs: provide_liquidity", "contracts/pool/src/storage.rs: get_deposit_amounts"]}
{"id": "C19", "title": "Deposit then withdraw never profits", "statement": "Depositing into a funded pool holding no donated tokens and withdrawing the shares just minted returns at most what was deposited, of each token.", "quantifier": "all states and amounts", "why_tests_cant": "all rounding combinations", "anchors": ["contracts/pool/src/contract.rs: provide_liquidity, withdraw_liquidity"]}
{"id": "C20", "title": "Swapping back and forth never profits", "statement": "Swapping dx of A for B and swapping everything received back never returns more than dx of A plus the rounding gain of the two swaps, which is at most ceil((x+dx-1)/y) units of A; it never returns more than dx once the first commission c1 satisfies dx-1 <= (c1-1)*x.", "quantifier": "all states and amounts", "why_tests_cant": "all rounding combinations", "anchors": ["contracts/pool/src/contract.rs: compute_swap"]}
{"id": "C21", "title": "A single swap cannot drain a pool", "statement": "With a spread limit of at most 100% a swap leaves at least part of the bought reserve as soon as that reserve is at least 4 units.", "quantifier": "all states and offers", "why_tests_cant": "worst case over all reserves", "anchors": ["contracts/pool/src/contract.rs: do_swap, assert_max_spread"]}
{"id": "C22", "title": "Pool fee and limit settings stay valid", "statement": "Fee, slippage, spread and referral limits stored by a pool are between 0 and 10000 bps.", "quantifier": "every reachable state", "why_tests_cant": "all histories of admin updates", "anchors": ["contracts/pool/src/contract.rs: initialize, update_config"]}
{"id": "C23", "title": "Default slippage stays valid", "statement": "The default slippage stored by a pool is between 0 and 10000 bps.", "quantifier": "every reachable state", "why_tests_cant": "all histories of admin updates and upgrades", "anchors": ["contracts/pool/src/contract.rs: initialize, upgrade"]}
{"id": "C24", "title": "Only the pool admin changes pool settings", "statement": "A call that changes the settings or admin of an initialised pool is authorised by the admin stored before the call; initialisation happens at most once.", "quantifier": "every reachable state, every call", "why_tests_cant": "all callers", "anchors": ["contracts/pool/src/contract.rs: initialize, update_config, upgrade"]}
{"id": "C25", "title": "A funded pool keeps accepting deposits", "statement": "A pool with outstanding shares never reaches a state in which every deposit fails.", "quantifier": "every reachable state", "why_tests_cant": "needs reachability over all histories", "anchors": ["contracts/pool/src/storage.rs: get_deposit_amounts", "contracts/pool/src/contract.rs: do_swap"]}
{"id": "C26", "title": "Successful deposits mint shares", "statement": "Every successful deposit credits the depositor with a positive number of LP shares.", "quantifier": "all states and amounts", "why_tests_cant": "worst-case rounding", "anchors": ["contracts/pool/src/contract.rs: provide_liquidity"]}
{"id": "C27", "title": "Stable pool solvency", "statement": "The reserves a stable pool reports never exceed the tokens it actually holds.", "quantifier": "every reachable system state", "why_tests_cant": "interleavings", "anchors": ["contracts/pool_stable/src/contract.rs: provide_liquidity, withdraw_liquidity, do_swap"]}
{"id": "C28", "title": "Stable pool LP supply bookkeeping", "statement": "The LP total reported by a stable pool is at least the sum of all LP-token balances.", "quantifier": "every reachable system state", "why_tests_cant": "sums over all holders and histories", "anchors": ["contracts/pool_stable/src/storage.rs: mint_shares, burn_shares"]}
{"id": "C29", "title": "Stable deposits mint at most the growth of D", "statement": "Shares minted to a later depositor satisfy minted*D_before <= total*(D_after-D_before), where D is the pool's own invariant value, and are at least the minimum requested.", "quantifier": "all states and amounts", "why_tests_cant": "all rounding combinations", "anchors": ["contracts/pool_stable/src/contract.rs: provide_liquidity", "contracts/pool_stable/src/math.rs: compute_d"]}
{"id": "C30", "title": "Stable swap settlement and guards", "statement": "A successful stable swap settles exactly (offer in, return out, commission to the recipient, reserves updated) and respects deadline, minimum, fee consent and spread limits.", "quantifier": "all states and arguments", "why_tests_cant": "all inputs", "anchors": ["contracts/pool_stable/src/contract.rs: swap, do_swap, compute_swap"]}
{"id": "C31", "title": "Stable quote equals execution", "statement": "simulate_swap of a stable pool answers exactly what a successful swap in the same state returns.", "quantifier": "all states and amounts", "why_tests_cant": "all inputs", "anchors": ["contracts/pool_stable/src/contract.rs: simulate_swap, do_swap"]}
{"id": "C32", "title": "Only the stable-pool admin changes its settings", "statement": "A call that changes settings or admin of an initialised stable pool is authorised by its admin.", "quantifier": "every state and call", "why_tests_cant": "all callers", "anchors": ["contracts/pool_stable/src/contract.rs: update_config"]}
{"id": "C33", "title": "Newton iterations are honest", "statement": "compute_d and calc_y either fail or return a value whose last two iterates differ by at most the tolerance; D is 0 exactly for an empty pool.", "quantifier": "all amounts and amplifications", "why_tests_cant": "all inputs", "anchors": ["contracts/pool_stable/src/math.rs: compute_d, calc_y"]}
{"id": "C34", "title": "Stable minimum liquidity is locked", "statement": "From the first deposit on, a stable pool keeps 1000 LP shares that nobody can redeem.", "quantifier": "every reachable state", "why_tests_cant": "histories of withdrawals", "anchors": ["contracts/pool_stable/src/contract.rs: provide_liquidity"]}
{"id": "C35", "title": "Stake bookkeeping", "statement": "The total reported by the stake contract equals the sum of all users' recorded stakes, and each user's total equals the sum of their individual stakes.", "quantifier": "every reachable system state", "why_tests_cant": "sums over all users and histories", "anchors": ["contracts/stake/src/contract.rs: bond, unbond, query_staked, query_total_staked", "contracts/stake/src/storage.rs"]}
{"id": "C36", "title": "Staked principal is fully backed", "statement": "The stake contract holds at least the total staked amount of LP tokens.", "quantifier": "every reachable system state", "why_tests_cant": "interleavings of bonds, unbonds, reward payouts (also in the LP token) and transfers", "anchors": ["contracts/stake/src/contract.rs"]}
{"id": "C37", "title": "Principal can always be withdrawn", "statement": "For every recorded stake, unbond with its amount and timestamp by its owner succeeds and pays exactly that amount, unless the owner's balance would overflow.", "quantifier": "every reachable state, every recorded stake", "why_tests_cant": "liveness over all histories", "anchors": ["contracts/stake/src/contract.rs: unbond, remove_stake"]}
{"id": "C38", "title": "Reward solvency", "statement": "The stake contract always holds enough of each reward token to pay every user's pending rewards at the same time (plus all principal when the reward token is the LP token).", "quantifier": "every reachable state", "why_tests_cant": "sum over all users, days and stakes", "anchors": ["contracts/stake/src/distribution.rs: calculate_pending_rewards", "contracts/stake/src/contract.rs: distribute_rewards, withdraw_rewards"]}
{"id": "C39", "title": "Rewards are not paid twice", "statement": "After withdraw_rewards a second withdraw_rewards or query at the same time yields 0 of every reward token, whatever happened in between except a new distribution.", "quantifier": "every reachable state and user", "why_tests_cant": "all histories", "anchors": ["contracts/stake/src/contract.rs: withdraw_rewards", "contracts/stake/src/distribution.rs"]}
{"id": "C40", "title": "Reward size", "statement": "The pending reward of a user equals the sum over unclaimed distributions and their stakes of floor(stake*reward/total) scaled by min(age in days,60)/60 (a factor kept to 18 decimals) and rounded down, so it never exceeds the pro-rata share and misses the exact product by less than one unit plus share/10^18.", "quantifier": "all histories", "why_tests_cant": "all stakes and ages", "anchors": ["contracts/stake/src/distribution.rs: calculate_pending_rewards"]}
{"id": "C41", "title": "Every staker can withdraw rewards", "statement": "withdraw_rewards never fails for a user with recorded stakes while the contract is solvent.", "quantifier": "every reachable state and user", "why_tests_cant": "reachability", "anchors": ["contracts/stake/src/distribution.rs: calculate_pending_rewards (staking_reward_day - stake_timestamp)"]}
{"id": "C42", "title": "Unbonding keeps earned rewards", "statement": "Unbonding a stake does not reduce the rewards already pending for it.", "quantifier": "every reachable state and stake", "why_tests_cant": "histories", "anchors": ["contracts/stake/src/contract.rs: unbond"]}
{"id": "C43", "title": "Every distributed reward is claimable", "statement": "The amount of each distribution is added to what stakers may claim.", "quantifier": "every sequence of distributions", "why_tests_cant": "needs two distributions in one ledger timestamp", "anchors": ["contracts/stake/src/contract.rs: distribute_rewards"]}
{"id": "C44", "title": "Only manager or owner distributes rewards", "statement": "Reward flows are created and funded only by calls authorised by the configured manager or owner; a flow is never registered twice.", "quantifier": "every state and call", "why_tests_cant": "all callers", "anchors": ["contracts/stake/src/contract.rs: create_distribution_flow, distribute_rewards", "contracts/stake/src/storage.rs: add_distribution"]}
{"id": "C45", "title": "Reward-distribution conservation", "statement": "In a rewards contract distributed_total minus withdrawable_total equals everything paid out (as long as the staking contract never names the rewards contract itself as the user), and the contract holds at least withdrawable_total reward tokens.", "quantifier": "every reachable state", "why_tests_cant": "histories", "anchors": ["contracts/stake_rewards/src/contract.rs: distribute_rewards, withdraw_rewards"]}
{"id": "C46", "title": "Locked rewards stay locked", "statement": "distribute_rewards never releases tokens the reward curve still locks at the current time.", "quantifier": "all states and times", "why_tests_cant": "all curves and times", "anchors": ["contracts/stake_rewards/src/contract.rs: distribute_rewards", "packages/curve/src/lib.rs: value"]}
{"id": "C47", "title": "The withdrawal multiplier cannot be bypassed", "statement": "Withdrawing twice at the same time pays no more than withdrawing once.", "quantifier": "all states", "why_tests_cant": "needs iterated withdrawals", "anchors": ["contracts/stake_rewards/src/contract.rs: withdraw_rewards", "contracts/stake_rewards/src/distribution.rs: calc_withdraw_power"]}
{"id": "C48", "title": "Funded rewards eventually unlock", "statement": "After fund_distribution succeeds, the curve's locked amount returns to at most its previous final value once both ends have passed.", "quantifier": "all curves and funding times", "why_tests_cant": "all curve combinations", "anchors": ["contracts/stake_rewards/src/contract.rs: fund_distribution", "packages/curve/src/lib.rs: combine, from_saturating_linear"]}
{"id": "C49", "title": "Vesting solvency", "statement": "The vesting contract holds at least the sum of all unclaimed vesting balances.", "quantifier": "every reachable system state", "why_tests_cant": "sum over all recipients and histories", "anchors": ["contracts/vesting/src/contract.rs: create_vesting_schedules, claim"]}
{"id": "C50", "title": "Claims follow the schedule exactly", "statement": "After a claim at time t the recipient has received in total exactly total minus the amount the schedule still locks at t; never more at any earlier time.", "quantifier": "every schedule accepted by the contract and every history of claims", "why_tests_cant": "all curves and claim times", "anchors": ["contracts/vesting/src/contract.rs: claim, query_available_to_claim", "packages/curve/src/lib.rs: value"]}
{"id": "C51", "title": "Everything can be claimed at the end", "statement": "Once a schedule has ended, its recipient can claim the whole remaining balance.", "quantifier": "every accepted schedule, every history", "why_tests_cant": "all curves", "anchors": ["contracts/vesting/src/contract.rs: claim", "contracts/vesting/src/utils.rs: validate_vesting_schedule"]}
{"id": "C52", "title": "Vesting entries are independent", "statement": "Creating or claiming one schedule leaves every other entry (other recipients, other indexes) unchanged, and indexes of a recipient are consecutive from 0.", "quantifier": "every reachable state", "why_tests_cant": "all histories", "anchors": ["contracts/vesting/src/storage.rs: save_vesting, update_vesting, get_all_vestings"]}
{"id": "C53", "title": "Only the admin creates schedules, only the recipient claims", "statement": "Schedules are created only with the admin's authorisation and paid by the admin; an entry is reduced only with its recipient's authorisation and the tokens go to the recipient.", "quantifier": "every state and call", "why_tests_cant": "all callers", "anchors": ["contracts/vesting/src/contract.rs: create_vesting_schedules, claim"]}
{"id": "C54", "title": "Minting respects capacity", "statement": "The minter can mint in total at most the capacity granted; every mint lowers it by exactly the amount, and only the admin can raise it.", "quantifier": "every history of mint, update_minter and update_minter_capacity calls", "why_tests_cant": "histories", "anchors": ["contracts/vesting/src/contract.rs: mint, update_minter, update_minter_capacity"]}
{"id": "C55", "title": "Validated decreasing curves are decreasing", "statement": "If validate_monotonic_decreasing accepts a curve then its value never increases with time, rounding included.", "quantifier": "all curves and pairs of times", "why_tests_cant": "all curves", "anchors": ["packages/curve/src/lib.rs: validate_monotonic_decreasing, value, interpolate"]}
{"id": "C56", "title": "Curve values stay in range", "statement": "Every value a valid curve takes lies between the bounds reported by range, and evaluation of a valid curve panics only on arithmetic overflow.", "quantifier": "all valid curves and times", "why_tests_cant": "all curves", "anchors": ["packages/curve/src/lib.rs: range, value"]}
{"id": "C57", "title": "Combining curves adds them", "statement": "For valid curves the combined curve equals the sum of both at every step time of either curve, and differs from it by at most 2 units anywhere else.", "quantifier": "all valid curves and times", "why_tests_cant": "all curve pairs and times", "anchors": ["packages/curve/src/lib.rs: combine"]}
{"id": "C58", "title": "Combined curve size is bounded", "statement": "The combined curve has at most the sum of the sizes of the two curves and strictly increasing times.", "quantifier": "all curves", "why_tests_cant": "all inputs", "anchors": ["packages/curve/src/lib.rs: combine, size, validate"]}
{"id": "C59", "title": "Decimal arithmetic rounds toward zero", "statement": "from_ratio, multiplication and division of decimals return the exact rational result truncated toward zero at 18 places, or fail when the intermediate product leaves i128.", "quantifier": "all i128 inputs", "why_tests_cant": "2^256 inputs", "anchors": ["packages/decimal/src/decimal.rs"]}
{"id": "C60", "title": "Decimal text round-trip", "statement": "Parsing the printed form of a non-negative decimal yields the same decimal.", "quantifier": "all decimals", "why_tests_cant": "all inputs", "anchors": ["packages/decimal/src/decimal.rs: FromStr, Display"]}
{"id": "C61", "title": "Decimal text round-trip for negatives", "statement": "Parsing the printed form of a negative decimal yields the same decimal.", "quantifier": "all decimals", "why_tests_cant": "all inputs", "anchors": ["packages/decimal/src/decimal.rs: FromStr, Display"]}
{"id": "C62", "title": "Factory registry is complete and stable", "statement": "Every pool created through the factory is listed for ever, once, and is found by its token pair in either order.", "quantifier": "every reachable state", "why_tests_cant": "all histories", "anchors": ["contracts/factory/src/contract.rs: create_liquidity_pool, query_pools, query_for_pool_by_token_pair", "contracts/factory/src/storage.rs: save_lp_vec_with_tuple_as_key"]}
{"id": "C63", "title": "One pool per pair", "statement": "At most one pool is ever registered for an unordered token pair.", "quantifier": "every reachable state", "why_tests_cant": "all histories", "anchors": ["contracts/factory/src/contract.rs: create_liquidity_pool, validate_token_info", "contracts/factory/src/utils.rs: deploy_lp_contract"]}
{"id": "C64", "title": "Pool creation is whitelisted", "statement": "A pool is created only by a call authorised by a currently whitelisted account; only the admin changes whitelist and wasm hashes.", "quantifier": "every state and call", "why_tests_cant": "all callers", "anchors": ["contracts/factory/src/contract.rs: create_liquidity_pool, update_whitelisted_accounts, update_wasm_hashes"]}
{"id": "C65", "title": "Whitelist update semantics", "statement": "After update_whitelisted_accounts an address is whitelisted iff it was whitelisted or added, and not removed (for duplicate-free whitelists).", "quantifier": "all lists", "why_tests_cant": "all lists with overlaps", "anchors": ["contracts/factory/src/contract.rs: update_whitelisted_accounts"]}
{"id": "C66", "title": "Multihop is the composition of its swaps", "statement": "A successful multihop swap of operations ops has exactly the effect of performing the single swaps in order, each offering exactly what the previous returned; unchained operation lists are rejected and the router never holds tokens.", "quantifier": "all operation lists of any length and all states", "why_tests_cant": "unbounded paths", "anchors": ["contracts/multihop/src/contract.rs: swap", "contracts/multihop/src/utils.rs: verify_swap"]}
{"id": "C67", "title": "Multihop quote equals execution", "statement": "If all hops use different pools, simulate_swap answers exactly the amount a successful swap in the same state delivers.", "quantifier": "all operation lists with distinct pools, all states", "why_tests_cant": "unbounded paths", "anchors": ["contracts/multihop/src/contract.rs: simulate_swap, swap"]}
{"id": "C68", "title": "Multihop quote equals execution for repeated pools", "statement": "The same without the distinctness condition.", "quantifier": "all operation lists", "why_tests_cant": "needs paths revisiting a pool", "anchors": ["contracts/multihop/src/contract.rs: simulate_swap, swap"]}
{"id": "C69", "title": "Trader funds move only with admin authorisation", "statement": "Tokens owned by a trader contract leave it only in calls authorised by its admin.", "quantifier": "every reachable state, every call", "why_tests_cant": "all callers", "anchors": ["contracts/trader/src/contract.rs: trade_token, transfer"]}
{"id": "C70", "title": "An authorised trade can succeed", "statement": "There is a state in which the admin's trade_token succeeds with real (non-mocked) authorisation rules.", "quantifier": "all states and arguments", "why_tests_cant": "the test-suite replaces host authorisation by a mock", "anchors": ["contracts/trader/src/contract.rs: trade_token", "contracts/pool/src/contract.rs: do_swap"]}
{"id": "C71", "title": "No third-party loss", "statement": "A call lowers the token balance of an account that is neither a contract nor a signer of the call only through an allowance this account granted.", "quantifier": "every reachable system state, every entry point of every contract, every account", "why_tests_cant": "all entry points and all states", "anchors": ["contracts/*/src/contract.rs"]}
{"id": "C72", "title": "Share query announces the withdrawal payout", "statement": "If query_share answers (a,b) for s shares then a withdrawal of s shares that succeeds in that state pays exactly a and b.", "quantifier": "all states and amounts", "why_tests_cant": "all rounding combinations", "anchors": ["contracts/pool/src/contract.rs: query_share, withdraw_liquidity"]}
{"id": "C73", "title": "Depositors are not credited with donated tokens", "statement": "Depositing into a funded pool and redeeming the minted shares returns at most the deposit even if tokens were sent to the pool directly.", "quantifier": "all states and amounts", "why_tests_cant": "all donation histories", "anchors": ["contracts/pool/src/contract.rs: provide_liquidity"]}
{"id": "C74", "title": "Stable swaps stay above the curve", "statement": "After a successful swap in a stable pool whose tokens have equal decimals, the new reserves, counting one more unit of the bought token, lie strictly above the curve y^2+(x+D*100/(2A)-D)y = D^3*100/(8Ax) of the invariant D computed before the swap.", "quantifier": "all states, amounts, amplifications", "why_tests_cant": "Newton iteration and rounding over all reserves", "anchors": ["contracts/pool_stable/src/contract.rs: compute_swap", "contracts/pool_stable/src/math.rs: calc_y"]}
{"id": "C75", "title": "Stable swaps are never better than par", "statement": "A successful stable swap (equal decimals) leaves reserves worth at least D-1 unit at par; if the reserves are close enough for D to equal their sum up to one scaled unit the trader receives at most the amount offered plus two units.", "quantifier": "all states, amounts, amplifications", "why_tests_cant": "all reserve ratios and rounding", "anchors": ["contracts/pool_stable/src/contract.rs: compute_swap", "contracts/pool_stable/src/math.rs: compute_d, calc_y"]}
{"id": "C76", "title": "Any funded stable pool can be swapped", "statement": "In every funded stable pool some swap can succeed, however large the reserves.", "quantifier": "all reserve sizes", "why_tests_cant": "needs large reserves; overflow only appears beyond 10.5 whole tokens", "anchors": ["contracts/pool_stable/src/math.rs:140-185 calc_y"]}
{"id": "C77", "title": "Stable deposits are limited by the u128 product", "statement": "A deposit into a stable pool that would bring the product of the reserves, scaled to 18 decimals, to 2^126 or more always fails.", "quantifier": "all states and amounts", "why_tests_cant": "all reserve sizes", "anchors": ["contracts/pool_stable/src/math.rs:75-108 compute_d"]}
{"id": "C78", "title": "Successful stable deposits mint shares", "statement": "Every successful deposit into a stable pool credits the depositor with a positive number of LP shares.", "quantifier": "all states and amounts", "why_tests_cant": "donation histories", "anchors": ["contracts/pool_stable/src/contract.rs: provide_liquidity"]}
{"id": "C79", "title": "Deposit and withdrawal is no free exchange", "statement": "A one-sided deposit into a stable pool followed by withdrawing the minted shares does not exchange tokens more cheaply than a swap of the same size.", "quantifier": "all states and amounts", "why_tests_cant": "interplay of two entry points", "anchors": ["contracts/pool_stable/src/contract.rs: provide_liquidity, withdraw_liquidity"]}
{"id": "C80", "title": "Stable withdrawals pay pro rata", "statement": "A successful stable-pool withdrawal burns exactly the sender's shares, pays at most the pro-rata share of each reserve and at least the minima, misses the exact share by less than one unit plus r/10^18, and never lowers the reserve per remaining share.", "quantifier": "all states and amounts", "why_tests_cant": "all rounding combinations", "anchors": ["contracts/pool_stable/src/contract.rs:475-562 withdraw_liquidity"]}
{"id": "C81", "title": "Stable share query announces the payout", "statement": "If query_share of a stable pool answers (a,b) for s shares then a successful withdrawal of s shares in that state pays exactly a and b.", "quantifier": "all states and amounts", "why_tests_cant": "all rounding combinations", "anchors": ["contracts/pool_stable/src/contract.rs:785-811 query_share"]}
{"id": "C82", "title": "The invariant D is positive and at most the sum", "statement": "For positive reserves a and b, compute_d returns 0 < D <= a+b with D+1 above the real root of (l-1)x+x^3/(4ab)=l(a+b), l = 2*10^18*A, so D falls short of the plain sum only for extreme imbalance.", "quantifier": "all amounts and amplifications", "why_tests_cant": "Newton convergence over all inputs", "anchors": ["contracts/pool_stable/src/math.rs:75-138 compute_d"]}
{"id": "C83", "title": "Stable reverse quotes are sufficient", "statement": "Swapping the offer amount quoted by simulate_reverse_swap of a stable pool returns at least the requested amount.", "quantifier": "all states and amounts", "why_tests_cant": "rounding of two Newton iterations", "anchors": ["contracts/pool_stable/src/contract.rs:736-783 simulate_reverse_swap"]}
{"id": "C84", "title": "The scarcer token sells near par", "statement": "A moderate sale of the scarcer token of a stable pool returns at least half the amount offered.", "quantifier": "all states and amounts", "why_tests_cant": "needs an unbalanced pool; the unit tests use balanced ones", "anchors": ["contracts/pool_stable/src/math.rs:75-185 compute_d, calc_y"]}
{"id": "C85", "title": "Claims are possible during the schedule", "statement": "While an accepted vesting schedule is running, its recipient can claim what has been unlocked since the last claim.", "quantifier": "all accepted schedules and times", "why_tests_cant": "needs amounts and durations far above those of the tests", "anchors": ["packages/curve/src/lib.rs: interpolate", "contracts/vesting/src/contract.rs:216-265 claim"]}
{"id": "C86", "title": "Tokens leave a vesting contract only by claims", "statement": "A vesting contract loses tokens only in claims, exactly what the claimed entry loses; what it holds beyond the stored balances (for instance tokens minted into it by its minter) never decreases.", "quantifier": "every reachable state, every call of every contract, all histories", "why_tests_cant": "quantifies over all calls and histories", "anchors": ["contracts/vesting/src/contract.rs:216-340 claim, burn, mint"]}
{"id": "C87", "title": "The claim query announces the payout", "statement": "query_available_to_claim answers exactly the amount a successful claim pays at the same time, and answers whenever the claim succeeds.", "quantifier": "every reachable state", "why_tests_cant": "all schedules and times", "anchors": ["contracts/vesting/src/contract.rs:216-265 claim, 461-470 query_available_to_claim"]}
{"id": "C88", "title": "Rewards of any size can be withdrawn", "statement": "A staker can withdraw the reward of every distribution whatever its amount.", "quantifier": "all reachable states and reward amounts", "why_tests_cant": "needs amounts of 18-decimals tokens; the tests use small numbers", "anchors": ["contracts/stake/src/distribution.rs:89-117 calculate_pending_rewards", "packages/decimal/src/decimal.rs: Mul<Decimal> for i128"]}
{"id": "C89", "title": "Reward claims are covered", "statement": "If the staking contract reports stakes honestly, what the rewards contract would pay to any set of distinct users adds up to no more than withdrawable_total, which it holds.", "quantifier": "every history with honest reports, all sets of users", "why_tests_cant": "sums over users and histories of bonds, unbonds and distributions", "anchors": ["contracts/stake_rewards/src/distribution.rs: update_rewards, withdrawable_rewards", "contracts/stake_rewards/src/contract.rs:227-334 distribute_rewards, withdraw_rewards"]}
{"id": "C90", "title": "Bonding keeps earned rewards", "statement": "Under honest reports, calculate_bond and add_user change neither the rewards the user has already earned nor anybody else's.", "quantifier": "every history with honest reports", "why_tests_cant": "all histories and stake sizes around the power thresholds", "anchors": ["contracts/stake_rewards/src/distribution.rs:85-118 update_rewards, apply_points_correction"]}
{"id": "C91", "title": "Distributions credit every token", "statement": "distribute_rewards turns the whole released amount into points: points per share times power plus the leftover grow by exactly 2^32 per token.", "quantifier": "all states, amounts and stake totals", "why_tests_cant": "needs amounts of 2^96 and more", "anchors": ["contracts/stake_rewards/src/contract.rs:262-283 distribute_rewards"]}
{"id": "C92", "title": "Only the staking contract drives rewards", "statement": "A rewards record changes only in calls authorised by the recorded staking contract, and its curve only if the admin also authorised the call.", "quantifier": "every call of every contract in every state", "why_tests_cant": "quantifies over all calls", "anchors": ["contracts/stake_rewards/src/contract.rs:136-428"]}
{"id": "C93", "title": "Stake totals of any size are served", "statement": "Distribution, withdrawal and unbonding in the rewards contract work for stakes of any i128 amount.", "quantifier": "all states and stakes", "why_tests_cant": "needs amounts of 18-decimals tokens; the tests use small numbers", "anchors": ["contracts/stake_rewards/src/distribution.rs:232-243 calc_power", "packages/decimal/src/decimal.rs: Mul<Decimal> for i128"]}
{"id": "C94", "title": "Removed accounts stay out of the whitelist", "statement": "After update_whitelisted_accounts an account on the removal list is no longer whitelisted, so it can create no pool until it is added again.", "quantifier": "every reachable state, all lists", "why_tests_cant": "needs a whitelist initialised with a duplicate", "anchors": ["contracts/factory/src/contract.rs:91-138 initialize, 237-279 update_whitelisted_accounts"]}
{"id": "C95", "title": "The whitelist always has a member", "statement": "As initialize insists on, at every time at least one account may create pools.", "quantifier": "every reachable state", "why_tests_cant": "all update histories", "anchors": ["contracts/factory/src/contract.rs:91-138 initialize, 237-279 update_whitelisted_accounts"]}
{"id": "C96", "title": "The portfolio query is exact", "statement": "query_user_portfolio lists, in order of creation, exactly the pools of which the user holds or has staked shares, with their pro-rata worth of both reserves rounded down, and (if asked) exactly the user's stakes.", "quantifier": "every reachable state, every user", "why_tests_cant": "all registries, users and rounding combinations", "anchors": ["contracts/factory/src/contract.rs:420-491 query_user_portfolio", "contracts/pool/src/contract.rs: query_share"]}
{"id": "C97", "title": "The portfolio is available to every user", "statement": "query_user_portfolio answers for every user in every reachable state.", "quantifier": "every reachable state, every user", "why_tests_cant": "needs holdings of about 170 tokens of 18 decimals", "anchors": ["contracts/factory/src/contract.rs:420-491 query_user_portfolio", "packages/decimal/src/decimal.rs: from_ratio"]}
{"id": "C98", "title": "Pool, share token and stake contract belong together", "statement": "For ever, the share token of a pool is administered by the pool and differs from both assets, the stake contract of the pool is initialised for that share token, and no two pools have a share token or stake contract in common.", "quantifier": "every reachable state", "why_tests_cant": "all histories of deployments and initialisations", "anchors": ["contracts/pool/src/contract.rs: initialize", "contracts/pool_stable/src/contract.rs: initialize", "contracts/stake/src/contract.rs: initialize"]}
{"id": "C99", "title": "Reverse quotes are for the requested direction", "statement": "simulate_reverse_swap of the router quotes, for an operation offering X and asking Y, the amount of X that fetches the requested amount of Y at the registered pool.", "quantifier": "all states and operations", "why_tests_cant": "needs an unbalanced stable pool; the test-suite quotes constant-product pools", "anchors": ["contracts/multihop/src/contract.rs:217-287 simulate_reverse_swap", "contracts/pool_stable/src/contract.rs:736-783 simulate_reverse_swap"]}
{"id": "C100", "title": "Code is replaced only by the stored admin", "statement": "The code of a contract changes only in a transaction signed by the admin stored in that contract at that time; that admin can always replace it.", "quantifier": "every reachable state, every call of every contract", "why_tests_cant": "quantifies over all calls and contracts", "anchors": ["contracts/pool/src/contract.rs:583-590 upgrade, 780-785 update", "contracts/pool_stable/src/contract.rs:605-610 upgrade, 824-829 update", "contracts/stake/src/contract.rs:389-393 update", "contracts/stake_rewards/src/contract.rs:540-545 update", "contracts/vesting/src/contract.rs:472-477 update", "contracts/factory/src/contract.rs:497-505 update", "contracts/multihop/src/contract.rs:293-298 update"]}
{"id": "C101", "title": "Tokens and traders keep their code", "statement": "The code of a token contract or a trader contract is never replaced, whoever signs.", "quantifier": "every history", "why_tests_cant": "quantifies over all histories", "anchors": ["contracts/token/src/contract.rs", "contracts/trader/src/contract.rs"]}
{"id": "C102", "title": "Admin roles are fixed at initialisation", "statement": "The admin of a staking, rewards, vesting, factory, multihop or trader contract, and the manager and owner of a staking contract, are those of its initialisation for ever.", "quantifier": "every reachable state and every continuation", "why_tests_cant": "quantifies over all histories", "anchors": ["contracts/stake/src/contract.rs:81-121 initialize", "contracts/stake_rewards/src/contract.rs:84-134 initialize", "contracts/vesting/src/contract.rs:84-157 initialize, initialize_with_minter", "contracts/factory/src/contract.rs:91-138 initialize", "contracts/multihop/src/contract.rs:61-75 initialize", "contracts/trader/src/contract.rs:68-110 initialize"]}
{"id": "C103", "title": "Only the deployer initialises a contract", "statement": "A deployed staking, rewards, vesting or multihop contract can be initialised only with the authorisation of whoever deployed it or of the admin named.", "quantifier": "every reachable state", "why_tests_cant": "needs an attacker between deployment and initialisation", "anchors": ["contracts/stake/src/contract.rs:81-121 initialize", "contracts/stake_rewards/src/contract.rs:84-134 initialize", "contracts/vesting/src/contract.rs:84-157 initialize, initialize_with_minter", "contracts/multihop/src/contract.rs:61-75 initialize"]}
{"id": "C104", "title": "Handing over a pool hands over its staking contract", "statement": "After the admin of a pool hands the role over with update_config, the former admin can no longer change the contracts of that pool.", "quantifier": "every reachable state", "why_tests_cant": "interplay of two contracts after an admin change", "anchors": ["contracts/pool/src/contract.rs:540-581 update_config", "contracts/stake/src/contract.rs:389-393 update"]}
{"id": "C105", "title": "Share value never falls outside swaps", "statement": "No transaction other than a swap on the pool (directly or routed) lowers the amount of either reserve token per LP share of a constant-product pool, in one step or over any history without such swaps.", "quantifier": "every reachable state, every call of every contract, all histories", "why_tests_cant": "quantifies over all interleavings of deposits, withdrawals, donations and foreign calls", "anchors": ["contracts/pool/src/contract.rs:268-408 provide_liquidity, 450-538 withdraw_liquidity"]}
{"id": "C106", "title": "Deadlines are enforced", "statement": "No swap, deposit or withdrawal (of either pool type, through the router or through a trader) succeeds after the deadline given.", "quantifier": "all states and arguments", "why_tests_cant": "all entry points and times", "anchors": ["contracts/pool/src/contract.rs: provide_liquidity, swap, withdraw_liquidity", "contracts/pool_stable/src/contract.rs: provide_liquidity, swap, withdraw_liquidity", "contracts/multihop/src/contract.rs:81-143 swap", "contracts/trader/src/contract.rs: trade_token"]}
{"id": "C107", "title": "Deposits are made at the pool price", "statement": "A deposit into a funded constant-product pool takes each token up to what the other side asks for at the pool's price, rounded down; the offered amounts may be off that price by at most the tolerance, and a tolerance above the pool's maximum is refused.", "quantifier": "every reachable state, all amounts and tolerances", "why_tests_cant": "all ratios and rounding combinations", "anchors": ["contracts/pool/src/contract.rs:268-408 provide_liquidity", "contracts/pool/src/storage.rs:317-437 get_deposit_amounts"]}
{"id": "C108", "title": "Stable deposits honour the slippage tolerance", "statement": "The slippage tolerance given with a deposit into a stable pool limits how far the deposit may be from the proportion of the reserves.", "quantifier": "all states, amounts and tolerances", "why_tests_cant": "needs an unbalanced deposit with a tolerance", "anchors": ["contracts/pool_stable/src/contract.rs:275-434 provide_liquidity"]}
{"id": "C109", "title": "Contracts are initialised once", "statement": "initialize of a pool, stable pool, staking, rewards, vesting, factory, multihop or trader contract succeeds only on a contract that is not initialised, and an initialised contract stays so for ever.", "quantifier": "every reachable state and history", "why_tests_cant": "quantifies over all histories", "anchors": ["contracts/pool/src/contract.rs: initialize", "contracts/pool_stable/src/contract.rs:146-273 initialize", "contracts/stake/src/contract.rs:81-129 initialize", "contracts/stake_rewards/src/contract.rs:84-130 initialize", "contracts/vesting/src/contract.rs:84-149 initialize, initialize_with_minter", "contracts/factory/src/contract.rs: initialize", "contracts/multihop/src/contract.rs: initialize", "contracts/trader/src/contract.rs: initialize"]}
{"id": "C110", "title": "Powers are rounded down and close", "statement": "Decimal and Decimal256 pow: for a non-negative base the result is never above the exact power; for a base of at most one it is short by at most n-1 units of the last place and never fails; powers of whole numbers are exact.", "quantifier": "all bases and exponents", "why_tests_cant": "quantifies over all u32 exponents and bases; tests check a handful", "anchors": ["packages/decimal/src/decimal.rs:162-188 pow", "packages/decimal/src/decimal256.rs:107-130 pow"]}
{"id": "C111", "title": "Inverses are exact to the last place", "statement": "inv is None exactly at zero, otherwise 1/v truncated to 18 places, and always in range.", "quantifier": "all values", "why_tests_cant": "all i128 values", "anchors": ["packages/decimal/src/decimal.rs:193-202 inv", "packages/decimal/src/decimal256.rs:132-140 inv"]}
{"id": "C112", "title": "Decimal conversions keep the value", "statement": "from_atomics and to_i128_with_precision convert between integers of p places and decimals with truncation only, a p-place amount survives the round trip, the conversion to integers is defined for all p up to 18, and percent, permille and bps are the ratios to 100, 1000 and 10000.", "quantifier": "all values and numbers of places", "why_tests_cant": "all combinations of value and places", "anchors": ["packages/decimal/src/decimal.rs:58-70 percent, permille, bps", "packages/decimal/src/decimal.rs:143-159 from_atomics, 212-218 to_i128_with_precision"]}
{"id": "C113", "title": "abs_diff is the distance", "statement": "Decimal::abs_diff of two decimals is their distance and in particular never negative.", "quantifier": "all pairs of values", "why_tests_cant": "needs operands of opposite sign near the ends of the range", "anchors": ["packages/decimal/src/decimal.rs:253-267 abs, abs_diff"]}
{"id": "C114", "title": "Decimal256 rounds down and agrees with Decimal", "statement": "Products, quotients, ratios and conversions of Decimal256 are the exact values rounded down, fail only for a zero divisor or beyond 256 bits, and equal those of Decimal on non-negative numbers where Decimal gives an answer.", "quantifier": "all values", "why_tests_cant": "all value pairs up to 2^256", "anchors": ["packages/decimal/src/decimal256.rs:56-105 percent, from_atomics", "packages/decimal/src/decimal256.rs:142-182 from_ratio, to_u128_with_precision", "packages/decimal/src/decimal256.rs:198-229 add, sub, mul, div"]}
{"id": "C115", "title": "Distances of Decimal256 are computed for all values", "statement": "Decimal256::abs_diff gives the distance of any two values.", "quantifier": "all pairs of values", "why_tests_cant": "needs values above 2^128", "anchors": ["packages/decimal/src/decimal256.rs:184-191 abs_diff"]}
{"id": "C116", "title": "multiply_ratio multiplies by the ratio", "statement": "multiply_ratio(n, d) of a decimal v is v*n/d.", "quantifier": "all values", "why_tests_cant": "the existing test asserts the wrong value", "anchors": ["packages/decimal/src/decimal.rs:220-222 multiply_ratio", "packages/decimal/src/decimal256.rs:157-164 multiply_ratio"]}
{"id": "C117", "title": "Reverse routes are quoted leg by leg", "statement": "simulate_reverse_swap of the router over a path is the composition of the reverse quotes of its parts from the end of the path, with commissions and spreads in order; a leg through a constant-product pool asks for an amount that, with one unit more, fetches what was requested.", "quantifier": "all states, paths and amounts", "why_tests_cant": "all paths and states", "anchors": ["contracts/multihop/src/contract.rs:217-287 simulate_reverse_swap", "contracts/multihop/src/utils.rs:14-24 verify_reverse_swap"]}
{"id": "C118", "title": "The annualised payout is the payout of a year", "statement": "calculate_annualized_payout gives the tokens that the reward curve unlocks in the coming year; if the curve ends earlier, what is still locked scaled from the remaining time to a year; after the end nothing, and nothing is locked then.", "quantifier": "every history whose fundings end after they start", "why_tests_cant": "all curves and times", "anchors": ["contracts/stake_rewards/src/distribution.rs:186-230 calculate_annualized_payout"]}
{"id": "C119", "title": "The annualised rate depends only on payout and stake", "statement": "query_annualized_reward reports the annualised payout per unit of stake power, so that it does not change when neither the payout nor the stake changes.", "quantifier": "every reachable state", "why_tests_cant": "needs a query after the first distribution", "anchors": ["contracts/stake_rewards/src/contract.rs:448-481 query_annualized_reward"]}
{"id": "C120", "title": "When withdrawals succeed", "statement": "withdraw_liquidity of a constant-product pool, called by an account, succeeds exactly when: the account signs; the deadline has not passed; it holds the shares, a positive number; both minimum amounts are positive and at most the amounts due, the pro-rata share of the reserves with the ratio cut to 18 places; the intermediate products fit 128 bits; and the payouts fit the account's balances.", "quantifier": "every reachable state, all arguments", "why_tests_cant": "quantifies over all states, amounts, balances and arguments; a test shows single points", "anchors": ["contracts/pool/src/contract.rs:450-538 withdraw_liquidity"]}
{"id": "C121", "title": "When swaps succeed", "statement": "swap of a constant-product pool, called by an account, succeeds exactly when: the account signs and holds the amount, a positive number; deadline, maximum fee, minimum output and spread limit are respected; the gross output is positive; the spread times 10^18 fits 128 bits; and the balances of pool, account and fee recipient have room.", "quantifier": "every reachable state, all arguments", "why_tests_cant": "quantifies over all states, amounts, balances and arguments; a test shows single points", "anchors": ["contracts/pool/src/contract.rs:411-447 swap, 788-962 do_swap, 1115-1197"]}
{"id": "C122", "title": "Holders can redeem", "statement": "Whoever holds shares of a constant-product pool worth more than nothing can redeem them, all at once, as long as the payout fits their balances.", "quantifier": "every reachable state", "why_tests_cant": "needs very lopsided or very large pools", "anchors": ["contracts/pool/src/contract.rs:450-538 withdraw_liquidity", "packages/decimal/src/decimal.rs: from_ratio, Mul for i128"]}
{"id": "C123", "title": "Swaps within the spread limit are carried out", "statement": "A swap whose spread is within the limit of a constant-product pool and that the sender can pay is carried out.", "quantifier": "every reachable state", "why_tests_cant": "needs large reserves of a token with 18 decimals", "anchors": ["contracts/pool/src/contract.rs:1115-1123 assert_max_spread", "packages/decimal/src/decimal.rs: from_ratio"]}
{"id": "C124", "title": "When deposits succeed", "statement": "provide_liquidity of a constant-product pool fails unless both amounts are given; called by an account, succeeds exactly when: the account signs; the deadline has not passed; the amounts and minima are positive, the tolerance admissible; the offered amounts are at the price of the pool within the tolerance and the amounts taken at least the minima and held by the account; and the new balance of each reserve times the number of shares fits 128 bits. The first deposit succeeds exactly when, instead, the product of the amounts is at least 1001*1001 and fits 128 bits.", "quantifier": "every reachable state, all arguments", "why_tests_cant": "quantifies over all states, amounts, balances and arguments; a test shows single points", "anchors": ["contracts/pool/src/contract.rs:268-408 provide_liquidity", "contracts/pool/src/storage.rs:317-437 get_deposit_amounts"]}
{"id": "C125", "title": "When token calls succeed", "statement": "transfer, transfer_from, approve, burn, burn_from and mint, called by an account, succeed exactly when the right account signs, the amount is not negative and covered by balance and live allowance, the receiver's balance has room, and an allowance other than zero does not expire in the past.", "quantifier": "every reachable state, all arguments", "why_tests_cant": "quantifies over all states, amounts, balances and arguments; a test shows single points", "anchors": ["contracts/token/src/contract.rs:41-160"]}
{"id": "C126", "title": "When staking calls succeed", "statement": "bond, unbond and distribute_rewards, called by an account, succeed exactly when: it signs; bond: the amount is at least the minimum, held by the account and has room in the contract's balance and the total; unbond: a stake of that amount and time exists, the contract holds it and the account has room; distribute_rewards: the account is manager or owner, the token has a distribution flow and is a token, and the amount is not negative, held by the account and has room.", "quantifier": "every reachable state, all arguments", "why_tests_cant": "quantifies over all states, amounts, balances and arguments; a test shows single points", "anchors": ["contracts/stake/src/contract.rs:139-174 bond, 176-203 unbond, 220-252 distribute_rewards"]}
{"id": "C127", "title": "When stable withdrawals succeed", "statement": "withdraw_liquidity of a stable pool, called by an account, succeeds exactly under the same conditions as for the constant-product pool.", "quantifier": "every reachable state, all arguments", "why_tests_cant": "quantifies over all states, amounts, balances and arguments; a test shows single points", "anchors": ["contracts/pool_stable/src/contract.rs:475-562 withdraw_liquidity"]}
{"id": "C128", "title": "When stable swaps succeed", "statement": "swap of a stable pool, called by an account, succeeds exactly when the pool gives a quote for it (simulate_swap succeeds), the account signs and holds the amount, a positive number, deadline, maximum fee, minimum output and spread limit are respected for the quoted numbers, the quoted gross output is positive, the quoted spread times 10^18 fits 128 bits, and the balances have room.", "quantifier": "every reachable state, all arguments", "why_tests_cant": "quantifies over all states, amounts, balances and arguments; a test shows single points", "anchors": ["contracts/pool_stable/src/contract.rs:437-473 swap, 687-734 simulate_swap, 832-978 do_swap"]}
{"id": "C129", "title": "Pools take deposits of any size", "statement": "A constant-product pool accepts every deposit at its price that the sender can pay.", "quantifier": "every reachable state", "why_tests_cant": "needs tokens with 18 decimals", "anchors": ["contracts/pool/src/contract.rs:268-408 provide_liquidity"]}
{"id": "C130", "title": "The schedule listing is complete", "statement": "query_all_vesting_info of a vesting contract answers for every address and lists exactly the schedules of that address, each at its own index.", "quantifier": "every reachable state, every address", "why_tests_cant": "all histories of creations and claims", "anchors": ["contracts/vesting/src/contract.rs:426-431 query_all_vesting_info", "contracts/vesting/src/storage.rs:161-185 get_all_vestings"]}
{"id": "C131", "title": "The slippage check of the pool library is exact", "statement": "assert_slippage_tolerance accepts two deposits only if the tolerance is at most the maximum and each deposit times the other reserve, reduced by the tolerance, is at most the other product up to rounding; while the products times 10^18 fit in an i128 it accepts exactly these.", "quantifier": "all amounts, reserves and tolerances", "why_tests_cant": "all combinations and rounding; the code is not called by any entry point", "anchors": ["contracts/pool/src/contract.rs:1065-1105 assert_slippage_tolerance"]}
{"id": "C132", "title": "Splitting a single-sided deposit", "statement": "split_deposit_based_on_pool_ratio writes nothing, ends within 128 rounds for every i128 deposit, swaps a positive part of a deposit above 500 units and reports the quote of simulate_swap for that part; smaller deposits are not split (the whole deposit is to be swapped, quote 0).", "quantifier": "all states and amounts", "why_tests_cant": "termination and all search paths; the code is not called by any entry point", "anchors": ["contracts/pool/src/contract.rs:975-1050 split_deposit_based_on_pool_ratio", "packages/phoenix/src/utils.rs:36-39 is_approx_ratio"]}
{"id": "C133", "title": "A split deposit has the pool's proportion", "statement": "The part kept and the quote for the part swapped that split_deposit_based_on_pool_ratio returns are within 1% of the proportion of the reserves.", "quantifier": "every reachable state, deposits above 500 units", "why_tests_cant": "needs amounts for which the binary search ends by interval width", "anchors": ["contracts/pool/src/contract.rs:975-1050 split_deposit_based_on_pool_ratio", "packages/phoenix/src/utils.rs:36-39 is_approx_ratio"]}
{"id": "C134", "title": "Proportional deposits pass the slippage check", "statement": "assert_slippage_tolerance accepts every deposit in exactly the proportion of the reserves, whatever its size.", "quantifier": "all amounts", "why_tests_cant": "needs large products", "anchors": ["contracts/pool/src/contract.rs:1065-1105 assert_slippage_tolerance"]}
{"id": "C135", "title": "When vesting calls succeed", "statement": "claim, create_vesting_schedules and mint of a vesting contract, called by an account, succeed exactly when: claim: the account signs, has a schedule with that index, the amount still locked at this time is less than the recorded balance, and the difference has room; create_vesting_schedules: the admin signs, the list is not empty and names no account twice, every schedule starts at a positive time, has increasing times, never rises, ends at 0 and is below the complexity limit, and the admin holds the sum of the totals; mint: the minter signs, the amount is positive and within its capacity, and the contract (or a signer) is the admin of the token.", "quantifier": "every reachable state, all arguments", "why_tests_cant": "quantifies over all states, amounts, balances and arguments; a test shows single points", "anchors": ["contracts/vesting/src/contract.rs:151-214 create_vesting_schedules, 216-265 claim, 288-330 mint", "contracts/vesting/src/utils.rs"]}
{"id": "C136", "title": "When pool creation succeeds", "statement": "create_liquidity_pool, called by an account, succeeds exactly when: the account signs and is whitelisted; token A sorts before token B; the staking minima are positive and the staking complexity is not 0; all basis-point arguments are at most 10000 and the fee at most the maximum; the three addresses to be used are free; and for a stable pool the amplification is given and between 1 and 1000000 and both tokens exist.", "quantifier": "every reachable state, all arguments", "why_tests_cant": "quantifies over all states, amounts, balances and arguments; a test shows single points", "anchors": ["contracts/factory/src/contract.rs:141-235 create_liquidity_pool", "contracts/pool/src/contract.rs:150-265 initialize", "contracts/pool_stable/src/contract.rs: initialize"]}
{"id": "C137", "title": "When reward withdrawals succeed", "statement": "withdraw_rewards of a staking contract succeeds exactly when query_withdrawable_rewards answers, every distribution asset is a token contract, the contract holds each announced amount and the user's balance has room for it; nobody's signature is needed.", "quantifier": "every reachable state, all users", "why_tests_cant": "quantifies over all states, amounts, balances and arguments; a test shows single points", "anchors": ["contracts/stake/src/contract.rs:262-284 withdraw_rewards, 344-363 query_withdrawable_rewards"]}
{"id": "C138", "title": "New flows do not endanger old rewards", "statement": "After create_distribution_flow users can still withdraw the rewards they could withdraw before.", "quantifier": "every reachable state and every continuation", "why_tests_cant": "needs a flow for an address that is not a token, and all continuations", "anchors": ["contracts/stake/src/contract.rs:201-218 create_distribution_flow, 262-284 withdraw_rewards"]}
{"id": "C139", "title": "Pools of foreign tokens stay solvent", "statement": "If the tokens of a pool are other contracts whose transfer, when called by the pool, changes only token balances, leaves the pool's other balances alone and takes from the pool at most the amount asked for (whatever arrives at the receiver), then swaps and withdrawals of both pool types keep the recorded reserves covered by the balances, and after deposits the reserves are the balances; withdrawals pay at most the pro-rata share, and deposits into a funded constant-product pool do not lower the reserves per share.", "quantifier": "all such transfer functions, all states with covered reserves, all arguments", "why_tests_cant": "no test uses a foreign token", "anchors": ["contracts/pool/src/contract.rs:268-408 provide_liquidity, 450-538 withdraw_liquidity, 788-962 do_swap", "contracts/pool_stable/src/contract.rs:275-434, 475-562, 832-978"]}
{"id": "C140", "title": "A swap pays for what arrives", "statement": "A swap pays out at most what the constant-product curve gives for the amount of tokens that arrived.", "quantifier": "all transfer functions that charge the receiver, all states", "why_tests_cant": "needs a token with a fee on transfer", "anchors": ["contracts/pool/src/contract.rs:788-962 do_swap"]}
{"id": "C141", "title": "Recorded obligations are funded by what arrives", "statement": "The amounts recorded as owed by create_vesting_schedules and by distribute_rewards of the staking contract are at most the amounts that arrived.", "quantifier": "all transfer functions that charge the receiver, all states", "why_tests_cant": "needs a token with a fee on transfer", "anchors": ["contracts/vesting/src/contract.rs:151-214 create_vesting_schedules", "contracts/stake/src/contract.rs:220-260 distribute_rewards"]}
{"id": "C142", "title": "Stable swaps account for the tokens' decimals", "statement": "A stable pool with equal value on both sides serves swaps whatever the decimals of its two tokens are.", "quantifier": "every reachable state, all amounts", "why_tests_cant": "the tests use tokens with equal decimals", "anchors": ["contracts/pool_stable/src/contract.rs:997-1051 compute_swap"]}
{"id": "C143", "title": "Splitting a swap gains little", "statement": "Swapping an amount in n pieces, one after the other, by anybody, returns at least as much as one swap of the whole amount, and at most 2(n-1) units more, fees included.", "quantifier": "every reachable state, all lists of amounts", "why_tests_cant": "all ways of splitting and all roundings", "anchors": ["contracts/pool/src/contract.rs:788-962 do_swap, 1139-1190 compute_swap"]}
{"id": "C144", "title": "Fees follow the volume", "statement": "The fees collected by a constant-product pool depend on the volume traded, not on how it is split into swaps.", "quantifier": "every reachable state", "why_tests_cant": "needs many small swaps", "anchors": ["contracts/pool/src/contract.rs:1139-1190 compute_swap"]}
{"id": "C145", "title": "Small swaps are served", "statement": "A constant-product pool serves every swap within the spread limit, however small.", "quantifier": "every reachable state, all small amounts", "why_tests_cant": "needs all amounts below a bound and reserves that are not round numbers", "anchors": ["contracts/pool/src/contract.rs:1155-1165 compute_swap"]}
{"id": "C146", "title": "When settings calls succeed and what they change", "statement": "Each call that only changes settings, made by an account, succeeds exactly when the right account signs and the arguments are valid, and changes exactly the named fields of exactly that contract: update_config and the code updates of both pools, create_distribution_flow, the code updates of all contracts, update_minter, update_minter_capacity, update_whitelisted_accounts, update_wasm_hashes and set_admin of a token. (update_config of the stable pool needs nobody's signature, only the admin's address as an argument.)", "quantifier": "every reachable state, all arguments and signers", "why_tests_cant": "quantifies over all states, amounts, balances and arguments; a test shows single points", "anchors": ["contracts/pool/src/contract.rs:540-600 update_config, upgrade; 780-786 update", "contracts/pool_stable/src/contract.rs:564-612 update_config, upgrade; 824-830 update", "contracts/stake/src/contract.rs:201-218 create_distribution_flow, 389-393 update", "contracts/stake_rewards/src/contract.rs:540-546 update", "contracts/vesting/src/contract.rs:343-410 update_minter, update_minter_capacity; 472-480 update", "contracts/factory/src/contract.rs:237-303 update_whitelisted_accounts, update_wasm_hashes; 497-503 update", "contracts/multihop/src/contract.rs:293-299 update", "contracts/token/src/contract.rs:54-64 set_admin"]}
{"id": "C147", "title": "When initialisations and deployments succeed and what they create", "statement": "initialize of each contract and each deployment, called by an account, succeeds exactly when code of that kind without storage is at the address, the arguments are valid and (for pools and the factory) the derived addresses are free; the ledger then differs exactly by the new storage and, for pools, the new share token with no supply and the new staking contract owned by the given factory, for the factory its router. Nobody has to sign, except the admin of a trader.", "quantifier": "every reachable state, all arguments and signers", "why_tests_cant": "quantifies over all states, amounts, balances and arguments; a test shows single points", "anchors": ["contracts/pool/src/contract.rs:150-265 initialize", "contracts/pool_stable/src/contract.rs:146-273 initialize", "contracts/stake/src/contract.rs:81-129 initialize", "contracts/stake_rewards/src/contract.rs:84-130 initialize", "contracts/vesting/src/contract.rs:84-149 initialize, initialize_with_minter", "contracts/factory/src/contract.rs:91-138 initialize", "contracts/multihop/src/contract.rs:61-78 initialize", "contracts/trader/src/contract.rs:68-100 initialize", "contracts/token/src/contract.rs:26-39 __constructor"]}
{"id": "C148", "title": "When stake_rewards calls succeed and what they do", "statement": "Each call of a stake_rewards contract, made by an account, succeeds exactly when the signers are right (staking contract; staking contract and user for calculate_unbond; admin and staking contract for fund_distribution), the arguments are valid, the intermediate numbers fit and the contract can pay; stated for add_user, calculate_bond, calculate_unbond, distribute_rewards, withdraw_rewards, fund_distribution and the two reward queries, with the amounts paid and the new records as explicit formulas.", "quantifier": "every reachable state, all arguments and signers", "why_tests_cant": "quantifies over all states, amounts, balances and arguments; a test shows single points", "anchors": ["contracts/stake_rewards/src/contract.rs:136-156 add_user, 158-186 calculate_bond, 188-225 calculate_unbond, 227-288 distribute_rewards, 290-334 withdraw_rewards, 336-428 fund_distribution, 483-516 query_withdrawable_reward, 526-534 query_undistributed_reward", "contracts/stake_rewards/src/distribution.rs:85-118, 166-184, 232-280"]}
{"id": "C149", "title": "When trader transfers and vesting burns succeed and what they move", "statement": "transfer of a trader succeeds exactly when the admin is named as sender and signs, the token (the output token unless one is given) is a token contract, the trader holds the amount and the receiver has room; it moves exactly that amount from the trader to the receiver. burn of a vesting contract succeeds exactly when the sender signs and holds at least the amount, which is not 0; it burns exactly that amount of the sender's own balance.", "quantifier": "every reachable state, all arguments and signers", "why_tests_cant": "quantifies over all states, amounts, balances and arguments; a test shows single points", "anchors": ["contracts/trader/src/contract.rs:173-199 transfer", "contracts/vesting/src/contract.rs:268-285 burn"]}
{"id": "C150", "title": "When stable deposits succeed and what they do", "statement": "provide_liquidity of a stable pool, called by an account, succeeds exactly when the sender signs, the deadline is not over, the slippage argument is at most the pool's maximum, both amounts are positive and held by the sender, the balances have room, the invariant of the old and the new reserves can be computed, the new one is not below the old one, the products fit in 128 bits and the shares minted are at least the minimum asked for and (for the first deposit) positive after deducting 1000; the shares are the floor of the total times the floored growth ratio. Reserves become the balances; nothing else changes.", "quantifier": "every reachable state, all arguments and signers", "why_tests_cant": "quantifies over all states, amounts, balances and arguments; a test shows single points", "anchors": ["contracts/pool_stable/src/contract.rs:275-434 provide_liquidity", "contracts/pool_stable/src/math.rs:75-138 compute_d"]}
{"id": "C151", "title": "Allowances, admins and decimals of tokens", "statement": "No call of any contract changes an allowance except approve (to the given amount and expiration), transfer_from and burn_from (down by exactly the amount, same expiration, the caller's own entry); no call changes a token's admin except set_admin; no call changes a token's decimals.", "quantifier": "every reachable state, every call, every token, owner and spender", "why_tests_cant": "a test looks at a few balances after one call; it does not look at every account, every token and every other contract", "anchors": ["contracts/token/src/contract.rs:54-64 set_admin, 82-102 approve, 118-131 transfer_from, 146-160 burn_from", "contracts/token/src/allowance.rs"]}
{"id": "C152", "title": "Token calls change exactly the named balances", "statement": "After mint, transfer, transfer_from, burn, burn_from, approve or set_admin every balance of that token is the old one minus what the call takes from that account plus what it gives to it, the supply is the old one plus what is minted minus what is burned, and no other token and no other contract changes.", "quantifier": "every reachable state, all arguments, every account", "why_tests_cant": "a test looks at a few balances after one call; it does not look at every account, every token and every other contract", "anchors": ["contracts/token/src/contract.rs:41-160", "contracts/token/src/balance.rs"]}
{"id": "C153", "title": "Complete effect of deposits and withdrawals", "statement": "A successful withdrawal from a constant-product or stable pool and a successful deposit into a constant-product pool change the pool's record, every balance of every token and every supply exactly as given by explicit formulas in the old reserves, total and arguments; every other contract, the code, the clock and all settings stay.", "quantifier": "every reachable state, all arguments, every account and token", "why_tests_cant": "a test looks at a few balances after one call; it does not look at every account, every token and every other contract", "anchors": ["contracts/pool/src/contract.rs:268-408 provide_liquidity, 450-538 withdraw_liquidity", "contracts/pool_stable/src/contract.rs:475-562 withdraw_liquidity"]}
{"id": "C154", "title": "Complete effect of staking calls", "statement": "bond appends one stake with the present time, unbond removes the first matching stake and keeps the order of the others, distribute_rewards records the amount and the present total under the present time, withdraw_rewards pays exactly what the query announces and records the time of the claim; beyond that, no record, balance or supply changes and no other contract changes.", "quantifier": "every reachable state, all arguments, every account and token", "why_tests_cant": "a test looks at a few balances after one call; it does not look at every account, every token and every other contract", "anchors": ["contracts/stake/src/contract.rs:139-174 bond, 176-199 unbond, 220-260 distribute_rewards, 262-284 withdraw_rewards"]}
{"id": "C155", "title": "Complete effect of vesting calls", "statement": "claim pays the balance of the entry minus what is still locked and sets the entry to what is locked; create_vesting_schedules adds exactly one entry per listed recipient, numbered after their others, and takes exactly the sum of the totals from the admin; mint lowers the minter's capacity and mints to the contract; beyond that, no entry, balance or supply changes and no other contract changes.", "quantifier": "every reachable state, all arguments, every account and token", "why_tests_cant": "a test looks at a few balances after one call; it does not look at every account, every token and every other contract", "anchors": ["contracts/vesting/src/contract.rs:151-214 create_vesting_schedules, 216-265 claim, 288-330 mint"]}
{"id": "C156", "title": "Complete effect of pool creation", "statement": "A successful create_liquidity_pool leaves a ledger that differs from the old one exactly by the new pool with the given settings and no liquidity, its share token with no supply, its staking contract owned by the factory, and the entry of the new pool at the end of the factory's list and under its pair of tokens.", "quantifier": "every reachable state, all arguments", "why_tests_cant": "a test looks at a few balances after one call; it does not look at every account, every token and every other contract", "anchors": ["contracts/factory/src/contract.rs:141-235 create_liquidity_pool", "contracts/pool/src/contract.rs:150-265 initialize", "contracts/pool_stable/src/contract.rs:146-273 initialize"]}
{"id": "C157", "title": "Every way tokens leave a contract", "statement": "If a transaction lowers a contract's balance of a token, then: for a pool, the token is one of its two and the transaction is a swap for it, a withdrawal, or a route with an operation asking for it, signed by the user; for a staking contract, it is the unbonding of exactly that stake signed by the staker, or a reward withdrawal of a token with a flow; for stake_rewards, the reward token in a call signed by the staking contract; for vesting, the vesting token in a claim signed by the claimant; for a trader, a transfer of exactly that amount signed by its admin. A token contract, a factory and a router never lose tokens. Hence over any run tokens sent to a token contract, factory or router never come out again, nor do tokens other than its two (share tokens included) sent to a pool, nor stray tokens sent to a staking contract.", "quantifier": "every reachable state, every transaction, every contract and token; every run for the corollaries", "why_tests_cant": "Tests call the documented entry points and cannot show that no other call, on any contract, moves a contract's tokens.", "anchors": ["contracts/pool/src/contract.rs:410-538", "contracts/pool_stable/src/contract.rs:428-562", "contracts/stake/src/contract.rs:176-284", "contracts/stake_rewards/src/contract.rs", "contracts/vesting/src/contract.rs:216-265", "contracts/trader/src/contract.rs:115-228", "contracts/multihop/src/contract.rs:61-149"]}
{"id": "C158", "title": "Share value over a whole history", "statement": "Over any history of transactions (swaps on the pool and through routers, deposits, withdrawals, settings, other contracts' calls, time passing) while the supplies of the two tokens are at most M, the squared value of a pool share (product of reserves over squared share count) falls by at most M/1000^2 per swap made in the pool; every other transaction never lowers it. Without deposits and withdrawals the share count stays and the product of the reserves never rises.", "quantifier": "every reachable state with liquidity, every history of any length and any mix of calls, every bound M on the supplies", "why_tests_cant": "Needs an invariant over unbounded histories; a test plays a few swaps and compares with expected numbers.", "anchors": ["contracts/pool/src/contract.rs:267-538", "contracts/pool/src/contract.rs:788-965 do_swap", "contracts/pool/src/contract.rs:1139-1197 compute_swap", "contracts/multihop/src/contract.rs:61-149"]}
{"id": "C159", "title": "Fees reach the liquidity providers", "statement": "A swap that charges a fee leaves the product of the pool's reserves higher for the same number of shares (providers earn from trading).", "quantifier": "every reachable pool state and every swap", "why_tests_cant": "Tests check the fee recipient's balance, never what a share is worth after trading.", "anchors": ["contracts/pool/src/contract.rs:788-965 do_swap", "contracts/pool/src/contract.rs:1139-1197 compute_swap"]}
{"id": "C160", "title": "Stable trading never profits over a history", "statement": "In a stable pool of two tokens with the same number (at most 8) of decimals, over any history without deposits and withdrawals the sum of the reserves falls by at most two units per swap (legs of routes counted), so no sequence of swaps takes out more than it puts in beyond that; swapping forth and straight back returns at most the input less both fees plus four units. With deposits (made while the reserves are not extremely uneven) and withdrawals mixed in and at least m shares in existence, the sum of reserves per share falls by at most 2/m per swap and 1/m per deposit.", "quantifier": "every reachable stable pool with equal decimals of at most 8, every history of any length and mix of calls, any size of reserves", "why_tests_cant": "Rests on the accuracy of two Newton iterations for every reserve ratio and on unbounded histories; tests swap a few amounts in balanced pools.", "anchors": ["contracts/pool_stable/src/math.rs:70-186", "contracts/pool_stable/src/contract.rs:276-562", "contracts/multihop/src/contract.rs:61-149"]}
{"id": "C161", "title": "Token events are the token books", "statement": "Publishing has no effect on what calls do: every history has exactly one log of events, and the same end state with or without it. For every token, every account's balance is the sum of the mint, transfer and burn events of that token naming it, and the supply is the sum of the mints minus the burns.", "quantifier": "every history of transactions of any length, every token and account", "why_tests_cant": "No test looks at the published events over a history; the project's tests hardly look at events at all, and none replays them.", "anchors": ["contracts/token/src/contract.rs:41-160"]}
{"id": "C162", "title": "A swap publishes exactly what it does", "statement": "A successful swap publishes, in order, the token transfers of the offer, the return and the commission, and the pool's own swap events with sender, tokens, offered amount, returned amount and spread, all equal to the amounts really moved and to the explicit swap formula; nothing else is published.", "quantifier": "every reachable state, every successful swap in a constant-product or stable pool", "why_tests_cant": "No test looks at the published events over a history; the project's tests hardly look at events at all, and none replays them.", "anchors": ["contracts/pool/src/contract.rs:788-965 do_swap", "contracts/pool_stable/src/contract.rs:832-982 do_swap"]}
{"id": "C163", "title": "Deposits and withdrawals publish exactly what they do", "statement": "A successful deposit or withdrawal publishes the transfers, mints and burns of the three tokens and the pool's own events with exactly the amounts moved and the shares minted or burned, and nothing else.", "quantifier": "every reachable state, every successful deposit or withdrawal", "why_tests_cant": "No test looks at the published events over a history; the project's tests hardly look at events at all, and none replays them.", "anchors": ["contracts/pool/src/contract.rs:267-408, 450-538", "contracts/pool_stable/src/contract.rs:275-434, 475-562"]}
{"id": "C164", "title": "Staking books can be replayed from the events", "statement": "Reading only the bond and unbond events of a staking contract in order (the user event, then the amount event) gives every user's present stake and the total stake.", "quantifier": "every history of any length, every staking contract and user", "why_tests_cant": "No test looks at the published events over a history; the project's tests hardly look at events at all, and none replays them.", "anchors": ["contracts/stake/src/contract.rs:139-199 bond, unbond"]}
{"id": "C165", "title": "The factory registry can be replayed from the events", "statement": "The list of pools of a factory is the list of the addresses in its create events, in order.", "quantifier": "every history of any length, every factory", "why_tests_cant": "No test looks at the published events over a history; the project's tests hardly look at events at all, and none replays them.", "anchors": ["contracts/factory/src/contract.rs:141-235 create_liquidity_pool"]}
{"id": "C166", "title": "The reward books can be replayed from the events", "statement": "What a stake_rewards contract has distributed is the sum of its announced distributions, and what it still owes is that minus the sum of the announced payments.", "quantifier": "every history of any length, every stake_rewards contract", "why_tests_cant": "No test looks at the published events over a history; the project's tests hardly look at events at all, and none replays them.", "anchors": ["contracts/stake_rewards/src/contract.rs:227-334 distribute_rewards, withdraw_rewards"]}
{"id": "C167", "title": "The minter of a vesting contract can be replayed from the events", "statement": "The minter and the capacity noted from the update and mint events of a vesting contract are its present minter and capacity.", "quantifier": "every history of any length, every vesting contract", "why_tests_cant": "No test looks at the published events over a history; the project's tests hardly look at events at all, and none replays them.", "anchors": ["contracts/vesting/src/contract.rs:288-410 mint, update_minter, update_minter_capacity"]}
{"id": "C168", "title": "A route publishes what its swaps publish", "statement": "The events of a successful multihop swap are exactly the events its legs would have published as the user's own separate swaps, one after the other.", "quantifier": "every state, every successful multihop swap of any length", "why_tests_cant": "No test looks at the published events over a history; the project's tests hardly look at events at all, and none replays them.", "anchors": ["contracts/multihop/src/contract.rs:81-143 swap"]}
{"id": "C169", "title": "Changes of settings are announced", "statement": "A change of a pool's fee, fee recipient, admin or limits, of the whitelist, of the stored hashes or of the code leaves an event.", "quantifier": "every settings call of every contract", "why_tests_cant": "No test looks at the published events over a history; the project's tests hardly look at events at all, and none replays them.", "anchors": ["contracts/pool/src/contract.rs:540-600 update_config, upgrade, 780-786 update", "contracts/pool_stable/src/contract.rs:564-612 update_config, upgrade", "contracts/factory/src/contract.rs:237-330"]}
{"id": "C170", "title": "A pool's events determine its reserves", "statement": "Two histories with the same events of a pool lead to the same reserves of that pool.", "quantifier": "every two histories", "why_tests_cant": "No test looks at the published events over a history; the project's tests hardly look at events at all, and none replays them.", "anchors": ["contracts/pool/src/contract.rs:267-408 provide_liquidity"]}
{"id": "C171", "title": "Events determine the allowances", "statement": "Two histories with the same events lead to the same allowances.", "quantifier": "every two histories", "why_tests_cant": "No test looks at the published events over a history; the project's tests hardly look at events at all, and none replays them.", "anchors": ["contracts/token/src/contract.rs:118-160 transfer_from, burn_from"]}
{"id": "C172", "title": "Events determine the vesting schedules", "statement": "Two histories with the same events lead to the same vesting entries.", "quantifier": "every two histories", "why_tests_cant": "No test looks at the published events over a history; the project's tests hardly look at events at all, and none replays them.", "anchors": ["contracts/vesting/src/contract.rs:151-265 create_vesting_schedules, claim"]}
{"id": "C173", "title": "Events tell the kind of a new pool", "statement": "The events of a pool creation tell whether a constant-product or a stable pool was created.", "quantifier": "every two histories", "why_tests_cant": "No test looks at the published events over a history; the project's tests hardly look at events at all, and none replays them.", "anchors": ["contracts/pool/src/contract.rs:258-263", "contracts/pool_stable/src/contract.rs:267-272", "contracts/factory/src/contract.rs:228-233"]}
{"id": "C174", "title": "The iterations always converge", "statement": "Computing the invariant D of positive amounts succeeds exactly when four explicit products of the amounts and the amplification fit their integer types, and computing a new reserve succeeds exactly when D was computed and three more products fit. Any failure, for any arguments, is an arithmetic overflow or a division by zero: neither Newton iteration ever uses up its 64 rounds.", "quantifier": "all amounts, all amplifications", "why_tests_cant": "Convergence within 64 rounds for every argument is a theorem about a rounded iteration; tests try a handful of reserves.", "anchors": ["contracts/pool_stable/src/math.rs:75-138 compute_d, calculate_step", "contracts/pool_stable/src/math.rs:147-186 calc_y"]}
{"id": "C175", "title": "A pool within capacity can take deposits", "statement": "While the reserves, scaled to 18 decimals, add up to at most 10^19, D and every new reserve can be computed; a deposit that at most doubles the reserves and leaves them not too unequal then succeeds for every signer who owns the tokens.", "quantifier": "every reachable state, every such deposit", "why_tests_cant": "A liveness claim over all reachable states and all amounts; a test shows single deposits.", "anchors": ["contracts/pool_stable/src/math.rs:75-186", "contracts/pool_stable/src/contract.rs:275-434 provide_liquidity"]}
{"id": "C176", "title": "A balanced pool quotes at least the constant-product amount", "statement": "A stable pool within capacity holding equal reserves quotes every offer that is not tiny, the quote before commission is at least what a constant-product pool would pay less the tolerance of the iteration, and a swap succeeds when that amount keeps within the spread limit.", "quantifier": "every reachable balanced pool, every offer", "why_tests_cant": "Needs the convergence of both iterations and a bound on where they stop, for all amounts.", "anchors": ["contracts/pool_stable/src/contract.rs:681-735 simulate_swap", "contracts/pool_stable/src/contract.rs:832-1051 do_swap, compute_swap", "contracts/pool_stable/src/math.rs:147-186 calc_y"]}
{"id": "C177", "title": "A call needs exactly the signatures it demands", "statement": "Every call makes a definite list of demands, each naming a signer, the invoking contract and the exact call signed for; the call succeeds under any other set of signers if and only if all the demanded signers are in it, and then with the same result and the same demands.", "quantifier": "every call of every contract, every state, every set of signers", "why_tests_cant": "Tests run with mocked authorisation, which accepts every demand without looking at it; which demands a call makes for all arguments and states is a statement about all executions.", "anchors": ["contracts/token/src/contract.rs:41-158", "contracts/pool/src/contract.rs:267-538", "contracts/pool_stable/src/contract.rs:275-562", "contracts/stake/src/contract.rs:139-330", "contracts/multihop/src/contract.rs:81-143"]}
{"id": "C178", "title": "The demands of every call are known", "statement": "In every reachable state a call demands: nothing (eleven calls); or the signature of one named address; or, for a swap, deposit, withdrawal, bond, distribution, funding, schedule creation, burn, mint or route, in addition exactly the transfers, burn, mint or swaps stated in terms of the arguments and the stored books, with exact amounts.", "quantifier": "every reachable state, every call of every contract", "why_tests_cant": "Tests run with mocked authorisation, which accepts every demand without looking at it; which demands a call makes for all arguments and states is a statement about all executions.", "anchors": ["contracts/pool/src/contract.rs:291, 432, 470, 550, 585, 782", "contracts/pool_stable/src/contract.rs:297, 459, 495, 607, 826", "contracts/stake_rewards/src/contract.rs:139, 161, 189, 196, 230, 294, 343, 350, 542", "contracts/vesting/src/contract.rs:153, 217, 269, 289, 344, 380, 474", "contracts/stake/src/contract.rs:140, 177, 202, 221, 391", "contracts/factory/src/contract.rs:152, 243, 289, 499", "contracts/multihop/src/contract.rs:99, 295", "contracts/trader/src/contract.rs:75, 114, 180"]}
{"id": "C179", "title": "Signatures of fixed-amount calls stay good", "statement": "For swaps, withdrawals, stable-pool deposits, bonds, unbonds, distributions, claims, schedule creations, token calls by holders, one-leg routes and the calls of administrators that cannot be replaced, the same call demands the same signatures in every later state, whatever happens in between.", "quantifier": "every reachable state, every later state, every such call", "why_tests_cant": "Tests run with mocked authorisation, which accepts every demand without looking at it; which demands a call makes for all arguments and states is a statement about all executions.", "anchors": ["contracts/pool/src/contract.rs:410-538", "contracts/pool_stable/src/contract.rs:275-562", "contracts/stake/src/contract.rs:139-330", "contracts/vesting/src/contract.rs:151-286", "contracts/multihop/src/contract.rs:81-143"]}
{"id": "C180", "title": "The signature of a deposit stays good while the pool trades", "statement": "A deposit into a constant-product pool that was simulated and signed still has the signatures it needs after another trade, as long as it is within its slippage tolerance.", "quantifier": "every reachable state, every deposit, every trade in between", "why_tests_cant": "Tests run with mocked authorisation, which accepts every demand without looking at it; which demands a call makes for all arguments and states is a statement about all executions.", "anchors": ["contracts/pool/src/contract.rs:267-408 provide_liquidity", "contracts/pool/src/storage.rs:317-420 get_deposit_amounts"]}
{"id": "C181", "title": "The signature of a route stays good while the pools trade", "statement": "A multihop swap of two or more legs that was simulated and signed still has the signatures it needs after another trade, as long as its minimum is met.", "quantifier": "every reachable state, every route, every trade in between", "why_tests_cant": "Tests run with mocked authorisation, which accepts every demand without looking at it; which demands a call makes for all arguments and states is a statement about all executions.", "anchors": ["contracts/multihop/src/contract.rs:99-143"]}
{"id": "C182", "title": "Contracts ask for transfers to themselves only", "statement": "Whatever a contract demands below the call a user has signed is a transfer from the signer to that very contract, the burn or mint that the user asked the vesting contract for, or a swap by the signer in the route they asked the router for.", "quantifier": "every reachable state, every call", "why_tests_cant": "Tests run with mocked authorisation, which accepts every demand without looking at it; which demands a call makes for all arguments and states is a statement about all executions.", "anchors": ["contracts/pool/src/contract.rs:347-348, 478, 888", "contracts/pool_stable/src/contract.rs:330-331, 503, 925-930", "contracts/stake/src/contract.rs:157, 252-256", "contracts/vesting/src/contract.rs:209-213, 281, 327", "contracts/stake_rewards/src/contract.rs:376"]}
{"id": "C183", "title": "Who may be asked to sign", "statement": "A call demands no signature exactly if it is one of eleven listed calls. Nobody but the signer of the root call is asked to sign anything, except the staking address (unbonding in and funding the rewards contract) and the token's administrator (minting through the vesting contract).", "quantifier": "every reachable state, every call", "why_tests_cant": "Tests run with mocked authorisation, which accepts every demand without looking at it; which demands a call makes for all arguments and states is a statement about all executions.", "anchors": ["contracts/pool_stable/src/contract.rs:564-603 update_config", "contracts/stake/src/contract.rs:262-330 withdraw_rewards", "contracts/stake_rewards/src/contract.rs:182-224, 337-365", "contracts/vesting/src/contract.rs:288-340"]}
{"id": "C184", "title": "Recording storage accesses changes nothing", "statement": "Every entry point, repeated with a record of each storage access and lifetime extension, has exactly the effect and the errors of the entry point without the record.", "quantifier": "every call of every contract, every state", "why_tests_cant": "Archival happens weeks of ledger time after the last access; the tests run in an environment whose ledger does not advance past any lifetime, so no test sees an entry lapse.", "anchors": ["contracts/pool/src/storage.rs:50-330", "contracts/pool_stable/src/storage.rs:70-360", "contracts/stake/src/storage.rs:70-230", "contracts/stake_rewards/src/distribution.rs:42-163", "contracts/vesting/src/storage.rs:72-269", "contracts/factory/src/storage.rs:60-223", "contracts/token/src/balance.rs:1-35"]}
{"id": "C185", "title": "Only a lapsed entry can stop a call", "statement": "Over every history with state archival an entry has a lifetime exactly if it is in the ledger, and a call that the contracts accept goes through if and only if every entry it touches that exists is still alive; in particular no call extends an entry that does not exist.", "quantifier": "every history of calls, ledger closings, extensions and restorations; every call", "why_tests_cant": "Archival happens weeks of ledger time after the last access; the tests run in an environment whose ledger does not advance past any lifetime, so no test sees an entry lapse.", "anchors": ["contracts/pool/src/storage.rs:50-330", "contracts/stake/src/storage.rs:70-230", "contracts/vesting/src/storage.rs:72-269", "contracts/factory/src/storage.rs:60-223"]}
{"id": "C186", "title": "Lifetimes never shrink", "statement": "No call and no other event shortens the lifetime of an entry or removes it.", "quantifier": "every history", "why_tests_cant": "Archival happens weeks of ledger time after the last access; the tests run in an environment whose ledger does not advance past any lifetime, so no test sees an entry lapse.", "anchors": ["contracts/pool/src/storage.rs:50-330", "contracts/stake_rewards/src/distribution.rs:42-163"]}
{"id": "C187", "title": "Used entries live for 29 more days", "statement": "After a call every entry it read or wrote lives for more than 29 days, except contract instances and the curve, distribution and adjustments of stake_rewards.", "quantifier": "every reachable state, every call, every entry accessed", "why_tests_cant": "Archival happens weeks of ledger time after the last access; the tests run in an environment whose ledger does not advance past any lifetime, so no test sees an entry lapse.", "anchors": ["contracts/pool/src/storage.rs:50-330", "contracts/stake/src/storage.rs:70-230", "contracts/vesting/src/storage.rs:72-269", "contracts/factory/src/storage.rs:60-223", "contracts/token/src/balance.rs:1-35"]}
{"id": "C188", "title": "Contracts passed through live for 6 more days", "statement": "After every call other than deployments, initialisations and code updates, the instance of every contract it passed through lives for more than 6 days.", "quantifier": "every call but the listed ones", "why_tests_cant": "Archival happens weeks of ledger time after the last access; the tests run in an environment whose ledger does not advance past any lifetime, so no test sees an entry lapse.", "anchors": ["contracts/pool/src/contract.rs:267-300, 410-440", "contracts/stake/src/contract.rs:139-330", "contracts/token/src/contract.rs:41-158", "contracts/multihop/src/contract.rs:81-143"]}
{"id": "C189", "title": "Rewards in use do not lapse", "statement": "A rewards contract whose users withdraw keeps its books alive: after a withdrawal the distribution lives for at least 6 more days.", "quantifier": "every reachable state, every withdrawal", "why_tests_cant": "Archival happens weeks of ledger time after the last access; the tests run in an environment whose ledger does not advance past any lifetime, so no test sees an entry lapse.", "anchors": ["contracts/stake_rewards/src/distribution.rs:42-83 save_reward_curve, save_distribution, get_distribution", "contracts/stake_rewards/src/distribution.rs:135-163 save_withdraw_adjustment"]}
{"id": "C190", "title": "Providers of a traded pool can withdraw", "statement": "As long as swaps go through in a constant-product pool, withdrawals that the contract accepts go through too.", "quantifier": "every reachable state, every withdrawal", "why_tests_cant": "Archival happens weeks of ledger time after the last access; the tests run in an environment whose ledger does not advance past any lifetime, so no test sees an entry lapse.", "anchors": ["contracts/pool/src/storage.rs:280-289 get_total_shares", "contracts/pool/src/contract.rs:788-962 do_swap", "contracts/pool/src/contract.rs:450-538 withdraw_liquidity"]}
{"id": "C191", "title": "Archival is never permanent", "statement": "Whatever has lapsed, restoring entries (which anyone can do) leads to a state where any call the contracts accept goes through, with the same effect.", "quantifier": "every reachable state, every call", "why_tests_cant": "Archival happens weeks of ledger time after the last access; the tests run in an environment whose ledger does not advance past any lifetime, so no test sees an entry lapse.", "anchors": ["contracts/pool/src/storage.rs:50-330", "contracts/vesting/src/storage.rs:72-269"]}
{"id": "C192", "title": "What is used again within 29 days is there", "statement": "An entry a call accessed (same exceptions) is still alive after any further history of at most 29 days.", "quantifier": "every reachable state, every call, every continuation", "why_tests_cant": "Archival happens weeks of ledger time after the last access; the tests run in an environment whose ledger does not advance past any lifetime, so no test sees an entry lapse.", "anchors": ["contracts/pool/src/storage.rs:50-330", "contracts/stake/src/storage.rs:70-230"]}
{"id": "C193", "title": "A lapsed schedule stops new grants to its owner", "statement": "While any vesting schedule of a recipient has lapsed, every call that creates a schedule for them fails.", "quantifier": "every reachable state, every list of schedules", "why_tests_cant": "Archival happens weeks of ledger time after the last access; the tests run in an environment whose ledger does not advance past any lifetime, so no test sees an entry lapse.", "anchors": ["contracts/vesting/src/storage.rs:106-127 save_vesting", "contracts/vesting/src/contract.rs:151-214 create_vesting_schedules"]}
{"id": "C194", "title": "Nobody is stopped by somebody else's lapsed record", "statement": "Bonding, unbonding and withdrawing rewards touch no user record and no balance but the user's own and the contract's; claiming touches no schedule but the one claimed.", "quantifier": "every state, every such call", "why_tests_cant": "Archival happens weeks of ledger time after the last access; the tests run in an environment whose ledger does not advance past any lifetime, so no test sees an entry lapse.", "anchors": ["contracts/stake/src/contract.rs:139-284 bond, unbond, withdraw_rewards", "contracts/vesting/src/contract.rs:216-265 claim"]}
{"id": "C195", "title": "Stakers cannot lengthen each other's records", "statement": "Over every history, the number of stakes recorded for a user is at most the number of bonds they signed themselves; the list of reward tokens and the reward histories are no longer than the number of flows and distributions signed by the manager or the owner.", "quantifier": "every history from the empty ledger, every staking contract, user and token", "why_tests_cant": "Tests run a handful of calls against fresh contracts; how records grow over an arbitrary history, and how many ledger entries a call then touches, cannot be sampled.", "anchors": ["contracts/stake/src/contract.rs:139-174 bond", "contracts/stake/src/contract.rs:201-260 create_distribution_flow, distribute_rewards"]}
{"id": "C196", "title": "Only the admin lengthens a list of schedules", "statement": "Over every history a holder has at most as many vesting schedules as calls that the admin signed name them, and every schedule stored has fewer points than the maximal complexity.", "quantifier": "every history, every vesting contract and holder", "why_tests_cant": "Tests run a handful of calls against fresh contracts; how records grow over an arbitrary history, and how many ledger entries a call then touches, cannot be sampled.", "anchors": ["contracts/vesting/src/contract.rs:151-214 create_vesting_schedules", "contracts/vesting/src/storage.rs:106-127 save_vesting"]}
{"id": "C197", "title": "The reward curve stays small", "statement": "However often a rewards contract is funded, its stored curve never has more points than the maximal complexity (or two).", "quantifier": "every reachable state", "why_tests_cant": "Tests run a handful of calls against fresh contracts; how records grow over an arbitrary history, and how many ledger entries a call then touches, cannot be sampled.", "anchors": ["contracts/stake_rewards/src/contract.rs:336-430 fund_distribution", "packages/curve/src/lib.rs:82-135, 407-470 size, validate_complexity, combine"]}
{"id": "C198", "title": "The factory's pool list grows only by whitelisted creators", "statement": "A call either leaves the factory's list of pools alone or appends exactly one pool, and then it is a creation signed by a whitelisted account; the list is never longer than the number of signed creations.", "quantifier": "every reachable state, every call; every history", "why_tests_cant": "Tests run a handful of calls against fresh contracts; how records grow over an arbitrary history, and how many ledger entries a call then touches, cannot be sampled.", "anchors": ["contracts/factory/src/contract.rs:141-247 create_liquidity_pool"]}
{"id": "C199", "title": "Every call but three touches at most thirty ledger entries", "statement": "Whatever the state and the arguments, an accepted call touches at most thirty distinct ledger entries, except withdrawing staking rewards, creating vesting schedules and a multihop swap.", "quantifier": "every state, every call without a loop", "why_tests_cant": "Tests run a handful of calls against fresh contracts; how records grow over an arbitrary history, and how many ledger entries a call then touches, cannot be sampled.", "anchors": ["contracts/pool/src/contract.rs:267-962", "contracts/pool_stable/src/contract.rs:264-960", "contracts/stake/src/contract.rs:139-260", "contracts/stake_rewards/src/contract.rs:158-430", "contracts/factory/src/contract.rs:141-247", "contracts/vesting/src/contract.rs:216-410"]}
{"id": "C200", "title": "What the three loops touch", "statement": "Withdrawing staking rewards touches between n and 4 + 4n entries with n reward tokens; a route of n legs at most 2 + 22n; creating schedules between n and 5 + n, where n counts the schedules the recipients have already and the new ones.", "quantifier": "every reachable state, every accepted call of the three", "why_tests_cant": "Tests run a handful of calls against fresh contracts; how records grow over an arbitrary history, and how many ledger entries a call then touches, cannot be sampled.", "anchors": ["contracts/stake/src/contract.rs:262-284 withdraw_rewards", "contracts/multihop/src/contract.rs:81-143 swap", "contracts/vesting/src/contract.rs:151-214 create_vesting_schedules", "contracts/vesting/src/storage.rs:106-127 save_vesting"]}
{"id": "C201", "title": "No call outgrows a fixed number of entries", "statement": "There is a number of ledger entries that no accepted call exceeds.", "quantifier": "every reachable state, every call", "why_tests_cant": "Tests run a handful of calls against fresh contracts; how records grow over an arbitrary history, and how many ledger entries a call then touches, cannot be sampled.", "anchors": ["contracts/stake/src/contract.rs:201-218 create_distribution_flow", "contracts/stake/src/contract.rs:262-284 withdraw_rewards"]}
{"id": "C202", "title": "A call changes only what it records as written", "statement": "After an accepted call every storage entry that its record of accesses does not list as written holds what it held before (the instance entry of a contract that is not loaded at all included); in particular every balance that changed is listed as written. The ledger's time and number stay.", "quantifier": "every reachable state, every call, every entry of every contract", "why_tests_cant": "A test runs a call in one ledger; that nothing outside the recorded entries matters, or changes, is a statement about every ledger that agrees on them.", "anchors": ["contracts/pool/src/storage.rs:50-330", "contracts/pool_stable/src/storage.rs:70-360", "contracts/stake/src/storage.rs:70-230", "contracts/stake_rewards/src/storage.rs:20-95", "contracts/vesting/src/storage.rs:72-269", "contracts/factory/src/storage.rs:47-223", "contracts/token/src/balance.rs:4-35"]}
{"id": "C203", "title": "The outcome depends on the touched entries alone", "statement": "If a call succeeds in one ledger, it succeeds in every ledger with the same time and number that agrees on the entries the call touches; it makes the same accesses, and entries that were equal in both ledgers before are equal after.", "quantifier": "every two reachable states, every call", "why_tests_cant": "A test runs a call in one ledger; that nothing outside the recorded entries matters, or changes, is a statement about every ledger that agrees on them.", "anchors": ["contracts/pool/src/contract.rs:267-962", "contracts/pool_stable/src/contract.rs:264-960", "contracts/stake/src/contract.rs:81-284", "contracts/stake_rewards/src/contract.rs:83-430", "contracts/vesting/src/contract.rs:84-410", "contracts/factory/src/contract.rs:91-303", "contracts/multihop/src/contract.rs:61-143", "contracts/trader/src/contract.rs:68-199"]}
{"id": "C204", "title": "Calls that do not meet can be exchanged", "statement": "If two calls both succeed in a ledger and neither changes an entry that the other touches, then each succeeds after the other with the same accesses, and both orders lead to ledgers that agree on every entry.", "quantifier": "every reachable state, every two calls with any signatures", "why_tests_cant": "A test runs a call in one ledger; that nothing outside the recorded entries matters, or changes, is a statement about every ledger that agrees on them.", "anchors": ["contracts/pool/src/contract.rs:411-448 swap", "contracts/stake/src/contract.rs:139-199 bond, unbond", "contracts/token/src/contract.rs:84-130 transfer"]}
{"id": "C205", "title": "Queries change nothing", "statement": "Every read-only entry point of every contract leaves the ledger as it is: it writes no storage entry, and extends the lifetime of existing entries only. It answers what the functions of the model answer (also when another contract calls it).", "quantifier": "every state, every query with any arguments", "why_tests_cant": "Tests query a few ledgers; that a read-only entry point changes nothing, reads nothing else and stays good is about every ledger and every later history.", "anchors": ["contracts/token/src/contract.rs:75-103", "contracts/pool/src/contract.rs:593-774", "contracts/pool_stable/src/contract.rs:614-818", "contracts/stake/src/contract.rs:288-361", "contracts/stake_rewards/src/contract.rs:432-534", "contracts/vesting/src/contract.rs:412-470", "contracts/factory/src/contract.rs:305-491", "contracts/multihop/src/contract.rs:145-287", "contracts/trader/src/contract.rs:201-269"]}
{"id": "C206", "title": "An answer depends on the entries read alone", "statement": "If a query answers in one ledger, it gives the same answer and reads the same entries in every ledger of the same time and number that agrees on the entries it read.", "quantifier": "every two states, every query", "why_tests_cant": "Tests query a few ledgers; that a read-only entry point changes nothing, reads nothing else and stays good is about every ledger and every later history.", "anchors": ["contracts/pool/src/contract.rs:593-774", "contracts/pool_stable/src/contract.rs:614-818", "contracts/stake/src/contract.rs:288-361", "contracts/stake_rewards/src/contract.rs:432-534", "contracts/vesting/src/contract.rs:412-470", "contracts/factory/src/contract.rs:305-491", "contracts/multihop/src/contract.rs:145-287"]}
{"id": "C207", "title": "An answer stays good until something it was read from is written", "statement": "Along every later history in which no transaction may change an entry the query read, the query gives the same answer; for queries that do not depend on the clock (all but allowances, quotes of stable pools and routes, pending rewards, yearly rates and vested amounts) the time may pass as well.", "quantifier": "every reachable state, every query, every later history", "why_tests_cant": "Tests query a few ledgers; that a read-only entry point changes nothing, reads nothing else and stays good is about every ledger and every later history.", "anchors": ["contracts/pool/src/contract.rs:668-739", "contracts/factory/src/contract.rs:305-491", "contracts/stake/src/contract.rs:304-321"]}
{"id": "C208", "title": "Only a lapsed entry stops a query", "statement": "With lifetimes of entries a query that answers is served exactly if none of the entries it reads has lapsed; submitted as a transaction it does no more than a sequence of extensions by hand, shortens no lifetime, and leaves what it extends alive beyond the threshold; lapsed entries can be restored by anyone, after which the query is served.", "quantifier": "every state reachable with lifetimes, every query", "why_tests_cant": "Archival happens weeks of ledger time after the last access; the tests run in an environment whose ledger does not advance past any lifetime, so no test sees an entry lapse.", "anchors": ["contracts/pool/src/contract.rs:593-774", "contracts/factory/src/contract.rs:305-491", "contracts/stake/src/storage.rs:70-143", "contracts/vesting/src/storage.rs:143-185"]}
{"id": "C209", "title": "The listing of pools does not depend on idle pools", "statement": "If the details of a listed pool can be queried, the listing of all pools is served too (and so is the portfolio of somebody who holds shares of that pool only).", "quantifier": "every state reachable with lifetimes, every factory", "why_tests_cant": "Archival happens weeks of ledger time after the last access; the tests run in an environment whose ledger does not advance past any lifetime, so no test sees an entry lapse.", "anchors": ["contracts/factory/src/contract.rs:324-341 query_all_pools_details", "contracts/factory/src/contract.rs:420-491 query_user_portfolio"]}
{"id": "C210", "title": "The listing of pools is complete and current", "statement": "query_all_pools_details always answers for an initialised factory: one row for every created pool, in the order of creation, holding that pool's current tokens, reserves, share token, issued shares, staking contract and fee; query_pool_details gives the same row for each.", "quantifier": "every reachable state, every factory", "why_tests_cant": "Tests query a few ledgers; that a read-only entry point changes nothing, reads nothing else and stays good is about every ledger and every later history.", "anchors": ["contracts/factory/src/contract.rs:305-341", "contracts/pool/src/contract.rs:616-666", "contracts/pool_stable/src/contract.rs:637-685"]}
{"id": "C211", "title": "Distributed and undistributed rewards are answered for the reward token only", "statement": "The two queries of a rewards contract always answer for its reward token: all that was ever distributed, and the balance less what can be withdrawn, which is never negative; for any other asset both fail.", "quantifier": "every reachable state, every rewards contract, every asset", "why_tests_cant": "Tests query a few ledgers; that a read-only entry point changes nothing, reads nothing else and stays good is about every ledger and every later history.", "anchors": ["contracts/stake_rewards/src/contract.rs:518-534", "contracts/stake_rewards/src/storage.rs:60-95"]}
{"id": "C212", "title": "Which entries queries keep alive", "statement": "No query extends an initialisation flag, a pool's default slippage, the stable-pool code hash, the books of stake_rewards, or the admin of a pool or a vesting contract; every other entry of an initialised contract (but the flow records of a staking contract and the output token of a trader without such a token) is extended by some query, so that anybody can keep it alive without an account on its contract.", "quantifier": "every reachable state, every query, every entry", "why_tests_cant": "Archival happens weeks of ledger time after the last access; the tests run in an environment whose ledger does not advance past any lifetime, so no test sees an entry lapse.", "anchors": ["contracts/pool/src/storage.rs:50-330", "contracts/stake_rewards/src/storage.rs:20-95", "contracts/vesting/src/storage.rs:72-269", "contracts/factory/src/storage.rs:47-223", "contracts/stake/src/storage.rs:70-230"]}
{"id": "C213", "title": "What the queries announce is there", "statement": "The reserves a pool announces are held by it, and the issued shares it announces cover all shares in circulation; the announced total of stakes is the sum of the stakes announced user by user; the announced balance of a vesting contract covers everything still to be claimed.", "quantifier": "every reachable state, every contract", "why_tests_cant": "Tests query a few ledgers; that a read-only entry point changes nothing, reads nothing else and stays good is about every ledger and every later history.", "anchors": ["contracts/pool/src/contract.rs:616-635", "contracts/pool_stable/src/contract.rs:637-656", "contracts/stake/src/contract.rs:304-321", "contracts/vesting/src/contract.rs:453-459"]}
{"id": "C214", "title": "No frame demands a signature twice, except in stake_rewards", "statement": "The host refuses a second require_auth of the same account in one frame. Exactly two calls make one: calculate_unbond when the user has a reward pending or is the staking address itself, and fund_distribution when the admin is the staking address. Below the root every frame that demands a signature runs a function with exactly one demand. All other calls are therefore accepted under the host's rule exactly when they are accepted without it.", "quantifier": "every reachable state, every call with any signatures", "why_tests_cant": "The test environment mocks or records authorisations; whether the host would refuse a repeated demand is about every call with every account in every role.", "anchors": ["contracts/stake_rewards/src/contract.rs:188-225 calculate_unbond", "contracts/stake_rewards/src/contract.rs:290-334 withdraw_rewards", "contracts/stake_rewards/src/contract.rs:336-428 fund_distribution"]}
{"id": "C215", "title": "A pending reward does not stop unbonding", "statement": "A user whose reward is pending can be unbonded from a rewards contract: the reward is paid on the way.", "quantifier": "every reachable state, every rewards contract driven by an account, every user", "why_tests_cant": "The test environment mocks or records authorisations; whether the host would refuse a repeated demand is about every call with every account in every role.", "anchors": ["contracts/stake_rewards/src/contract.rs:188-225 calculate_unbond", "contracts/stake_rewards/src/contract.rs:290-334 withdraw_rewards"]}
{"id": "C216", "title": "Clawbacks cost a contract no more than what was taken", "statement": "If the issuer of an asset (a Stellar asset contract with clawback) takes tokens away from contracts at any points of a history, every booked amount - reserves of both pool kinds, unclaimed vesting, withdrawable rewards, bonded tokens - exceeds the contract's balance by at most what was taken from that contract in that token. Share tokens cannot be taken back, and shares in circulation stay below the issued number.", "quantifier": "every history of calls and clawbacks, every contract", "why_tests_cant": "Tests never take tokens from a contract after it has booked them; a bound on the shortfall is about every history mixing clawbacks and calls.", "anchors": ["contracts/pool/src/contract.rs:267-537", "contracts/pool_stable/src/contract.rs:264-560", "contracts/stake/src/contract.rs:139-199", "contracts/stake_rewards/src/contract.rs:227-334", "contracts/vesting/src/contract.rs:216-270 claim"]}
{"id": "C217", "title": "A deposit after a clawback refills the hole", "statement": "Every accepted deposit into a constant-product pool books the pool's whole balances as reserves; the depositor pays at least the missing amount of each token, and the shares issued are at most in proportion to what was paid beyond it.", "quantifier": "every history of calls and clawbacks, every deposit", "why_tests_cant": "Tests never take tokens from a contract after it has booked them; a bound on the shortfall is about every history mixing clawbacks and calls.", "anchors": ["contracts/pool/src/contract.rs:318-396 provide_liquidity"]}
{"id": "C218", "title": "An accepted deposit earns shares", "statement": "Whoever deposits positive amounts of both tokens into a pool and is accepted receives shares.", "quantifier": "every history of calls and clawbacks, every deposit", "why_tests_cant": "Tests never take tokens from a contract after it has booked them; a bound on the shortfall is about every history mixing clawbacks and calls.", "anchors": ["contracts/pool/src/contract.rs:346-396 provide_liquidity"]}
{"id": "C219", "title": "Losses from a clawback are shared", "statement": "After a clawback the providers of a pool bear the loss in proportion to their shares: equal shares withdraw about equal amounts.", "quantifier": "every history of calls and clawbacks, every withdrawal", "why_tests_cant": "Tests never take tokens from a contract after it has booked them; a bound on the shortfall is about every history mixing clawbacks and calls.", "anchors": ["contracts/pool/src/contract.rs:450-537 withdraw_liquidity"]}
{"id": "C220", "title": "Rewards are only distributed when everything credited is held", "statement": "With bonded power, distribute_rewards succeeds only if the rewards contract holds what is credited and not withdrawn plus what its curve still locks; after a clawback below that it stops until somebody refills the contract.", "quantifier": "every state, every distribution", "why_tests_cant": "Tests never take tokens from a contract after it has booked them; a bound on the shortfall is about every history mixing clawbacks and calls.", "anchors": ["contracts/stake_rewards/src/contract.rs:227-288 distribute_rewards"]}
{"id": "C221", "title": "Whom a swap depends on", "statement": "If tokens refuse some holders (frozen, or without a trustline), a swap that would otherwise succeed goes through exactly if the offered token refuses neither trader nor pool and the bought token refuses neither trader nor pool nor the pool's fee recipient; a route exactly if this holds for each of its pools.", "quantifier": "every reachable state, every set of refused holders, every swap in either pool kind and every route", "why_tests_cant": "Tests trade assets that refuse nobody; which parties a call depends on is about every call with every pattern of refused holders.", "anchors": ["contracts/pool/src/contract.rs:788-962 do_swap", "contracts/pool_stable/src/contract.rs:826-960 do_swap", "contracts/multihop/src/contract.rs:61-143 swap"]}
{"id": "C222", "title": "A swap concerns the trader and the pool", "statement": "If the two tokens refuse neither the trader nor the pool, a swap in a pool without fee goes through.", "quantifier": "every reachable state, every set of refused holders", "why_tests_cant": "Tests trade assets that refuse nobody; which parties a call depends on is about every call with every pattern of refused holders.", "anchors": ["contracts/pool/src/contract.rs:905-910 do_swap"]}
{"id": "C223", "title": "Whom withdrawals depend on", "statement": "A withdrawal of liquidity depends on both tokens accepting provider and pool; a withdrawal of staking rewards on every registered reward asset accepting user and staking contract; unbonding on the bonded token alone.", "quantifier": "every state, every set of refused holders, every withdrawal", "why_tests_cant": "Tests trade assets that refuse nobody; which parties a call depends on is about every call with every pattern of refused holders.", "anchors": ["contracts/pool/src/contract.rs:450-537 withdraw_liquidity", "contracts/pool_stable/src/contract.rs:475-560 withdraw_liquidity", "contracts/stake/src/contract.rs:176-199 unbond", "contracts/stake/src/contract.rs:262-284 withdraw_rewards"]}
{"id": "C224", "title": "A reward that is due can be withdrawn", "statement": "A user can withdraw the rewards due in one asset if that asset refuses neither them nor the staking contract.", "quantifier": "every reachable state, every set of refused holders", "why_tests_cant": "Tests trade assets that refuse nobody; which parties a call depends on is about every call with every pattern of refused holders.", "anchors": ["contracts/stake/src/contract.rs:262-284 withdraw_rewards"]}
{"id": "C225", "title": "A refused provider is not locked in", "statement": "A provider of a constant-product pool whom a pool token refuses can pass the shares on: the receiver withdraws exactly what the provider would have withdrawn.", "quantifier": "every reachable state, every set of refused holders, every withdrawal that would otherwise succeed", "why_tests_cant": "Tests trade assets that refuse nobody; which parties a call depends on is about every call with every pattern of refused holders.", "anchors": ["contracts/pool/src/contract.rs:450-537 withdraw_liquidity", "contracts/token/src/contract.rs:84-130 transfer"]}
{"id": "C226", "title": "More in, more out", "statement": "Two swaps in the same direction from the same pool state: the one that offers more receives at least as much, after the fee, whoever trades and with whatever limits.", "quantifier": "every reachable state of a constant-product pool, every two amounts accepted", "why_tests_cant": "Tests compare a few fixed sequences of trades; an inequality between outcomes is about every state, amount and order.", "anchors": ["contracts/pool/src/contract.rs:788-962 do_swap", "contracts/pool/src/contract.rs:1139-1178 compute_swap"]}
{"id": "C227", "title": "Going second", "statement": "A swap that follows another one in the same direction never receives more than it would have without it; one that follows a swap in the opposite direction never receives less.", "quantifier": "every reachable state, every two swaps of a constant-product pool with nothing in between that touches it", "why_tests_cant": "Tests compare a few fixed sequences of trades; an inequality between outcomes is about every state, amount and order.", "anchors": ["contracts/pool/src/contract.rs:788-962 do_swap", "contracts/pool/src/contract.rs:1139-1178 compute_swap"]}
{"id": "C228", "title": "Trading around somebody gains at most what that one overpays", "statement": "Whoever swaps before somebody else's swap in the same direction and sells back afterwards gains at most the difference between what the other one paid and what the pool would have charged for the same amount before (x*g/(y-g) for reserves x, y), plus rounding below 2 + (2(x+d)+a)/(y-g).", "quantifier": "every reachable state, every three swaps of this shape, any traders", "why_tests_cant": "Tests compare a few fixed sequences of trades; an inequality between outcomes is about every state, amount and order.", "anchors": ["contracts/pool/src/contract.rs:788-962 do_swap", "contracts/pool/src/contract.rs:1139-1178 compute_swap"]}
{"id": "C229", "title": "A deposit is worth what it cost", "statement": "Right after a deposit into a funded constant-product pool the minted shares stand for the deposited amount of each token, short of less than the value of one share plus the value of one unit of the other token.", "quantifier": "every reachable funded pool, every accepted deposit", "why_tests_cant": "Tests compare a few fixed sequences of trades; an inequality between outcomes is about every state, amount and order.", "anchors": ["contracts/pool/src/contract.rs:268-408 provide_liquidity", "contracts/pool/src/storage.rs:317-437 get_deposit_amounts"]}
{"id": "C230", "title": "Later depositors keep their share", "statement": "Nobody can take a deposit into a stable pool away: a depositor whose deposit is accepted can withdraw about its value.", "quantifier": "every reachable stable pool, every accepted deposit followed by any calls of others", "why_tests_cant": "Tests compare a few fixed sequences of trades; an inequality between outcomes is about every state, amount and order.", "anchors": ["contracts/pool_stable/src/contract.rs:275-420 provide_liquidity"]}
{"id": "C231", "title": "More in, more out on routes", "statement": "Two routes over the same different constant-product pools from the same state: the one that starts with more ends with at least as much, whoever trades and with whatever limits.", "quantifier": "every reachable state, every route without repeated or stable pools, every two amounts accepted", "why_tests_cant": "Tests compare a few fixed sequences of trades; an inequality between outcomes is about every state, amount and order.", "anchors": ["contracts/multihop/src/contract.rs:81-143 swap", "contracts/pool/src/contract.rs:1139-1178 compute_swap"]}
{"id": "C232", "title": "More in, hardly less out of stable pools", "statement": "Two swaps in the same direction from the same state of a stable pool: the one that offers more receives less by at most one unit plus 10^12 at 18 decimals (eleven units of 7-decimal tokens), and by at most one unit if enough of the bought token is left (101 units of a 7-decimal token).", "quantifier": "every reachable state of a stable pool, every two amounts accepted", "why_tests_cant": "Tests compare a few fixed sequences of trades; an inequality between outcomes is about every state, amount and order.", "anchors": ["contracts/pool_stable/src/contract.rs:1008-1051 compute_swap", "contracts/pool_stable/src/math.rs:147-186 calc_y"]}
{"id": "C233", "title": "More in, never less out of stable pools", "statement": "Of two swaps in the same direction from the same state of a stable pool, the one that offers more never receives less.", "quantifier": "every reachable state of a stable pool, every two amounts accepted", "why_tests_cant": "Tests compare a few fixed sequences of trades; an inequality between outcomes is about every state, amount and order.", "anchors": ["contracts/pool_stable/src/contract.rs:1008-1051 compute_swap", "contracts/pool_stable/src/math.rs:147-186 calc_y"]}
{"id": "C234", "title": "Swaps with a harmful token", "statement": "If one token of a constant-product pool is written to harm it (its transfers and balances are arbitrary programs that the host only keeps from calling back into the pool), a swap still keeps the pool's reserve of the other token covered by what the pool holds: who sells that token pays in full, and who buys it gets no more than the constant product of the booked reserves allows.", "quantifier": "every state, every such token program, every accepted swap", "why_tests_cant": "Tests trade well-behaved tokens; a harmful token is an arbitrary program that may answer anything and call anything but the pool at every point of a call.", "anchors": ["contracts/pool/src/contract.rs:410-448 swap", "contracts/pool/src/contract.rs:788-962 do_swap"]}
{"id": "C235", "title": "Liquidity beside a harmful token", "statement": "In such a pool a withdrawal still pays the pro-rata share of the other token, and a deposit never lowers the reserve of the other token per share, whatever the harmful token reports.", "quantifier": "every state, every such token program, every accepted deposit or withdrawal", "why_tests_cant": "Tests trade well-behaved tokens; a harmful token is an arbitrary program that may answer anything and call anything but the pool at every point of a call.", "anchors": ["contracts/pool/src/contract.rs:268-408 provide_liquidity", "contracts/pool/src/contract.rs:450-537 withdraw_liquidity", "contracts/pool/src/storage.rs:317-437 get_deposit_amounts"]}
{"id": "C236", "title": "What a harmful token cannot touch", "statement": "Whatever calls of the deployed contracts are made, none that avoids a pool changes the pool's record, takes tokens from it or creates its shares; so every token that acts only by such calls and lies in its answers is covered by the two properties above.", "quantifier": "every reachable state, every sequence of calls that does not reach the pool, every token program built from such calls", "why_tests_cant": "Tests trade well-behaved tokens; a harmful token is an arbitrary program that may answer anything and call anything but the pool at every point of a call.", "anchors": ["contracts/pool/src/contract.rs:154-170 LiquidityPool", "contracts/token/src/contract.rs:84-147 transfer, burn", "contracts/multihop/src/contract.rs:81-143 swap"]}
{"id": "C237", "title": "Harmful tokens in stable pools", "statement": "In a stable pool with a harmful token, swaps, deposits and withdrawals keep the reserve of the other token covered by what the pool holds, sellers of that token pay in full, and withdrawals pay its pro-rata share.", "quantifier": "every state, every such token program, every accepted swap, deposit or withdrawal", "why_tests_cant": "Tests trade well-behaved tokens; a harmful token is an arbitrary program that may answer anything and call anything but the pool at every point of a call.", "anchors": ["contracts/pool_stable/src/contract.rs:275-420 provide_liquidity", "contracts/pool_stable/src/contract.rs:475-560 withdraw_liquidity", "contracts/pool_stable/src/contract.rs:826-960 do_swap"]}
{"id": "C238", "title": "Deposits of a harmful token do not dilute stable pools", "statement": "A deposit into a stable pool with a harmful token never lowers the reserve of the other token per share.", "quantifier": "every state, every such token program, every accepted deposit", "why_tests_cant": "Tests trade well-behaved tokens; a harmful token is an arbitrary program that may answer anything and call anything but the pool at every point of a call.", "anchors": ["contracts/pool_stable/src/contract.rs:275-420 provide_liquidity"]}
{"id": "C239", "title": "Pool errors name their cause", "statement": "When a call of a constant-product pool fails with a contract error code, the cause that code stands for was present: for each code a swap, deposit, withdrawal or initialisation reports, the stated relation between arguments, reserves and settings held (a missed deadline, a fee or spread limit, a minimum, a slippage bound, a token that is not in the pool, a first deposit too small). The other declared codes are never reported, and the administrator's calls report none.", "quantifier": "every reachable state, every call of a pool and every arguments", "why_tests_cant": "Tests provoke single errors; that a reported code always has the stated cause, and that some codes are never reported, concerns all states and arguments.", "anchors": ["contracts/pool/src/error.rs:6-39 ContractError", "contracts/pool/src/contract.rs:268-408 provide_liquidity", "contracts/pool/src/contract.rs:450-537 withdraw_liquidity", "contracts/pool/src/contract.rs:788-962 do_swap", "contracts/pool/src/storage.rs:317-437 get_deposit_amounts"]}
{"id": "C240", "title": "Stable pool errors name their cause", "statement": "When a call of a stable pool fails with a contract error code, the cause that code stands for was present; in particular the two iterations of the invariant always converge or overflow, so the codes for a failed iteration are never reported, and the code for too few issued shares is reported only where the same deposit without the minimum would issue fewer.", "quantifier": "every reachable state, every call of a stable pool and every arguments", "why_tests_cant": "Tests provoke single errors; that a reported code always has the stated cause, and that some codes are never reported, concerns all states and arguments.", "anchors": ["contracts/pool_stable/src/error.rs:6-30 ContractError", "contracts/pool_stable/src/math.rs:75-186 compute_d, calc_y", "contracts/pool_stable/src/contract.rs:275-434 provide_liquidity", "contracts/pool_stable/src/contract.rs:832-978 do_swap", "contracts/pool_stable/src/contract.rs:475-562 withdraw_liquidity"]}
{"id": "C241", "title": "Vesting, stake and reward errors name their cause", "statement": "When a call of the vesting, stake or reward contract fails with a contract error code, the cause that code stands for was present: a missing schedule, nothing to claim, a constant or never ending or too complex schedule, a repeated recipient, too few tokens, a caller who is not minter or admin, too little capacity, a bond below the minimum, no matching stake, a distribution that exists or does not, a start in the past, a reward below the minimum. Other declared codes are never reported; paying out rewards reports none.", "quantifier": "every state, every call of these contracts and every arguments", "why_tests_cant": "Tests provoke single errors; that a reported code always has the stated cause, and that some codes are never reported, concerns all states and arguments.", "anchors": ["contracts/vesting/src/error.rs:5-42 ContractError", "contracts/vesting/src/contract.rs:151-410 create_vesting_schedules, claim, burn, mint", "contracts/vesting/src/utils.rs:19-56 validate_vesting_schedule", "contracts/stake/src/contract.rs:81-260 initialize, bond, unbond", "contracts/stake_rewards/src/contract.rs:336-428 fund_distribution"]}
{"id": "C242", "title": "Factory, router and trader errors name their cause", "statement": "When creating a pool, a route or a trade fails with a contract error code, it is either the contract's own and its cause was present (caller not on the whitelist, token order, minimum stake or reward, empty or broken route, caller not the trader's admin, spread limit, token not in the pair, no registered pool for the pair), or it is the code of the pool of one step, the steps before it having gone through, and that pool's cause was present in the state it saw.", "quantifier": "every reachable state, every call of these contracts and every arguments", "why_tests_cant": "Tests provoke single errors; that a reported code always has the stated cause, and that some codes are never reported, concerns all states and arguments.", "anchors": ["contracts/factory/src/error.rs:5-14 ContractError", "contracts/factory/src/contract.rs:141-235 create_liquidity_pool", "contracts/multihop/src/contract.rs:81-143 swap", "contracts/trader/src/contract.rs:103-199 trade_token, transfer"]}
{"id": "C243", "title": "A code stands for one cause", "statement": "A claim is answered NeverFullyVested only for schedules that never vest fully, a first stable deposit below the minimum is answered LowLiquidity, and the code of a failed route tells whether its deadline was missed.", "quantifier": "every reachable state", "why_tests_cant": "Tests provoke single errors; that a reported code always has the stated cause, and that some codes are never reported, concerns all states and arguments.", "anchors": ["contracts/vesting/src/contract.rs:216-265 claim", "contracts/pool_stable/src/contract.rs:275-434 provide_liquidity", "contracts/pool/src/error.rs:6-39 ContractError", "contracts/pool_stable/src/error.rs:6-30 ContractError"]}
{"id": "C244", "title": "Nobody earns more by splitting stakes", "statement": "Among stakers of one contract: whoever has for each stake of another one that is at least as large and as old, and has not claimed later, can claim at least as much. Users whose stakes together amount at each time to no more than those of one account with a single stake per time, and who have not claimed earlier, can claim no more than it all together; and if they amount to as much, at most two units less for each of their stakes and each distribution.", "quantifier": "every reachable state, any number of accounts, any stakes and distributions", "why_tests_cant": "Tests check single payouts; comparing any two ways of holding the same stakes over any distributions needs a proof over all lists of stakes.", "anchors": ["contracts/stake/src/distribution.rs:70-121 calculate_pending_rewards", "contracts/stake/src/contract.rs:344-361 query_withdrawable_rewards", "contracts/stake/src/contract.rs:262-284 withdraw_rewards"]}
{"id": "C245", "title": "When rewards are claimed does not matter", "statement": "Of two stakers with the same stakes and the same last claim, one claims and the other does not. Whatever others do afterwards, as long as nothing is distributed in the very second of the claim after it, the one who waited can later claim exactly what the other got then plus what the other can claim by then.", "quantifier": "every reachable state, every later history in which the two do nothing, every reward token", "why_tests_cant": "Tests check single payouts; comparing any two ways of holding the same stakes over any distributions needs a proof over all lists of stakes.", "anchors": ["contracts/stake/src/contract.rs:262-284 withdraw_rewards", "contracts/stake/src/distribution.rs:70-121 calculate_pending_rewards"]}
{"id": "C246", "title": "A claim costs no reward", "statement": "A withdraw_rewards, which anybody may send for anybody, does not reduce what a staker gets of later distributions, even one of the same second.", "quantifier": "every reachable state and later history", "why_tests_cant": "Needs a claim and a distribution in the same second, in this order.", "anchors": ["contracts/stake/src/contract.rs:262-284 withdraw_rewards", "contracts/stake/src/distribution.rs:70-121 calculate_pending_rewards"]}
{"id": "C247", "title": "Splitting deposits gains nothing, splitting withdrawals hardly anything", "statement": "Without swaps, no sequence of deposits, withdrawals and other calls by anybody that leaves a pool with at most the reserves a single deposit would leave creates more shares than that deposit. None that leaves at least the shares a single withdrawal would leave takes more of either token than that withdrawal, save one unit and a 10^18-th of the reserve.", "quantifier": "every reachable state of a funded pool, any number and order of calls, any accounts", "why_tests_cant": "Tests make one deposit or withdrawal; a comparison with every other way to the same reserves ranges over all histories.", "anchors": ["contracts/pool/src/contract.rs:268-408 provide_liquidity", "contracts/pool/src/contract.rs:450-537 withdraw_liquidity"]}
{"id": "C248", "title": "A route there and back does not pay", "statement": "A multihop swap from one token to another and straight back goes through one and the same pool. A constant-product pool returns at most what was put in plus the value of one unit of the other token, and no more than was put in once the first commission is large enough; a stable pool of tokens with equally many decimals (at most eight) returns at most what was put in less both commissions plus four units.", "quantifier": "every reachable state, every amount, limit and deadline", "why_tests_cant": "Router tests run distinct pools with round amounts; repeated pools at arbitrary reserves are not tried.", "anchors": ["contracts/multihop/src/contract.rs:81-143 swap", "contracts/pool/src/contract.rs:788-962 do_swap", "contracts/pool_stable/src/contract.rs:832-978 do_swap"]}
{"id": "C249", "title": "Withdrawals can be split and postponed", "statement": "In a stable pool that is neither swapped in nor deposited to, no sequence of withdrawals and other calls that leaves at least the shares a single withdrawal would leave takes more of either token than that withdrawal, save one unit and a 10^18-th of the reserve. Who leaves either kind of pool after others gets the share computed before they left, less at most one unit and a 10^18-th of the reserve (in the constant-product pool also when others deposit meanwhile).", "quantifier": "every reachable state, any number and order of calls, any accounts", "why_tests_cant": "A run on a pool is a history of arbitrarily many withdrawals; tests make one.", "anchors": ["contracts/pool_stable/src/contract.rs:475-562 withdraw_liquidity", "contracts/pool/src/contract.rs:450-537 withdraw_liquidity"]}
{"id": "C250", "title": "Routes over stable pools do not beat par", "statement": "A multihop swap of n legs over stable pools whose two tokens have equally many decimals (at most eight) returns at most what was put in plus two units per leg, less per leg the smallest of the commissions charged on the outcome; this holds for every path, circles and repeated pools included, so no arbitrage circle of such pools pays more than rounding.", "quantifier": "every reachable state, routes of any length, any reserves, amplifications and amounts", "why_tests_cant": "Tests route over at most two pools; circles of pools at uneven reserves are not tried.", "anchors": ["contracts/multihop/src/contract.rs:81-143 swap", "contracts/pool_stable/src/contract.rs:832-978 do_swap", "contracts/pool_stable/src/math.rs:75-186 compute_d, calc_y"]}
{"id": "C251", "title": "The two tokens of a pool are treated alike", "statement": "What a quote says and what a swap pays depends on the reserve of the offered token, that of the asked token and the commission (in a stable pool also on the decimals and the amplification), and not on which token comes first. In two pools with the same shares and exchanged reserves (and exchanged decimals) the exchanged deposit and the same withdrawal leave exchanged reserves and the same shares, and a withdrawal pays exchanged amounts.", "quantifier": "every two reachable states and pools, every amount, limit and sender", "why_tests_cant": "Relates two executions in different pools; tests assert single numbers, mostly in one direction.", "anchors": ["contracts/pool/src/contract.rs:788-962 do_swap", "contracts/pool/src/contract.rs:268-408 provide_liquidity", "contracts/pool/src/contract.rs:450-537 withdraw_liquidity", "contracts/pool_stable/src/contract.rs:832-978 do_swap"]}
{"id": "C252", "title": "Trading around others does not pay in stable pools", "statement": "A trader who makes any number of swaps in stable pools (equally many decimals on both sides, at most eight), placed anywhere among the calls of others, ends up with at most the units there were at first, less all commissions, plus two units per swap. Trading just before and just after somebody else's swap therefore gains at most four units, whatever that swap tolerates.", "quantifier": "every reachable state, any number of swaps and pools, any calls of anybody in between", "why_tests_cant": "A sandwich needs the interleaving of two parties at chosen reserves; tests run one party.", "anchors": ["contracts/pool_stable/src/contract.rs:832-978 do_swap", "contracts/pool_stable/src/contract.rs:1008-1051 compute_swap", "contracts/pool_stable/src/math.rs:147-186 calc_y"]}
{"id": "C253", "title": "Withdrawals do not move the price", "statement": "As long as a pool of either kind is neither swapped in nor deposited to, n withdrawals, by whomever and among whatever other calls, leave the ratio of the reserves the same up to n units: the reserve of either token exceeds the other reserve at the old price by at most n.", "quantifier": "every reachable state, any number and order of calls, any accounts", "why_tests_cant": "A run on a pool is a history of arbitrarily many withdrawals; tests make one and do not look at the price.", "anchors": ["contracts/pool/src/contract.rs:450-537 withdraw_liquidity", "contracts/pool_stable/src/contract.rs:475-562 withdraw_liquidity"]}
{"id": "C254", "title": "Credited rewards stay", "statement": "While a staker neither bonds, unbonds nor claims, what that staker can claim of a reward token does not fall, whatever bonds, unbonds, claims and later distributions others make, provided nothing more is distributed in the current second.", "quantifier": "every reachable state, staker and reward token, any number of calls of anybody", "why_tests_cant": "Needs arbitrary histories of others after a distribution; tests have fixed scenarios.", "anchors": ["contracts/stake/src/contract.rs:220-260 distribute_rewards", "contracts/stake/src/distribution.rs calculate_pending_rewards"]}
{"id": "C255", "title": "A distribution of another token takes nothing away", "statement": "While a staker does nothing and nothing more of a reward token is distributed, what the staker can claim of it does not fall.", "quantifier": "every reachable state, staker and reward token, any number of calls of anybody", "why_tests_cant": "Needs two distributions of different tokens in one second with a bond in between; no test has that.", "anchors": ["contracts/stake/src/contract.rs:220-260 distribute_rewards"]}
{"id": "C256", "title": "Young stakes earn nothing", "statement": "A user whose stakes are all younger than a day can claim nothing, however large the stakes are and whatever has been distributed: bonding just before a distribution does not pay.", "quantifier": "every reachable state, user and reward token", "why_tests_cant": "Needs every stake age below a day and every history of distributions; tests use a few fixed ages.", "anchors": ["contracts/stake/src/distribution.rs:70-121 calculate_pending_rewards"]}
{"id": "C257", "title": "Who earns nothing takes nothing", "statement": "If somebody bonds just before a distribution and can claim nothing of it, the others can claim as much of it as without that bond.", "quantifier": "every reachable state, distribution, bond and staker", "why_tests_cant": "Compares two executions that differ in one call; tests look at one execution.", "anchors": ["contracts/stake/src/contract.rs:220-260 distribute_rewards", "contracts/stake/src/distribution.rs:70-121 calculate_pending_rewards"]}
{"id": "C258", "title": "The limits of a swap bound the loss", "statement": "Whoever swaps with a spread limit s and a commission limit f gets at least the value of the offer at the price before the swap (in a stable pool: as many units as offered), divided by 1+s and less the part f, whatever the settings of the pool are.", "quantifier": "every reachable state, pool of either kind, amount, limits and settings", "why_tests_cant": "All combinations of settings, reserves and limits; tests use a handful.", "anchors": ["contracts/pool/src/contract.rs:788-962 do_swap", "contracts/pool/src/contract.rs:1115-1123 assert_max_spread", "contracts/pool_stable/src/contract.rs:832-978 do_swap"]}
{"id": "C259", "title": "The spread limit alone bounds the loss", "statement": "A call that nobody has signed does not take more than half of what a swap with a spread limit of at most one percent pays.", "quantifier": "every reachable state, call and swap", "why_tests_cant": "Needs a settings call of a stranger between the quote and the swap; no test has that.", "anchors": ["contracts/pool_stable/src/contract.rs:564-603 update_config", "contracts/pool_stable/src/contract.rs:832-978 do_swap"]}
{"id": "C260", "title": "Approvals bound what is taken", "statement": "Over any history of a token, what a spender takes of an owner's tokens (transfer_from and burn_from together) is at most the allowance at first plus all amounts the owner has approved since, and what is left of the allowance counts against it.", "quantifier": "every history of calls to a token with any number of approvals", "why_tests_cant": "Histories with many approvals, partial spends and expirations are unbounded; tests make one approval.", "anchors": ["contracts/token/src/allowance.rs: read_allowance, write_allowance, spend_allowance", "contracts/token/src/contract.rs: approve, transfer_from, burn_from"]}
{"id": "C261", "title": "A changed allowance bounds what is taken", "statement": "If an owner changes an allowance once, the spender takes at most the larger of the old and the new amount.", "quantifier": "every history of calls to a token around one approval", "why_tests_cant": "Needs the spender to act just before the change; tests do not reorder calls.", "anchors": ["contracts/token/src/contract.rs: approve"]}
{"id": "C262", "title": "The limits of a route bound the loss", "statement": "A route of n legs over stable pools with a spread limit s and a commission limit f returns at least the n-th power of (1-f)/(1+s) of the units put in, whatever the settings of the pools are.", "quantifier": "every reachable state, every route of any length over stable pools, limits and settings", "why_tests_cant": "Routes of every length over pools with every setting; tests have two or three legs.", "anchors": ["contracts/multihop/src/contract.rs:81-143 swap", "contracts/pool_stable/src/contract.rs:832-978 do_swap"]}
