# Formal model of the Phoenix contracts — design

Source: `/repo` (Phoenix-Protocol-Group/phoenix-contracts at the pinned commit), Rust/Soroban.
Model and proofs: `/verif/rocq/theories` (Coq 8.16.1, standard library only).

## 1. How the code is modelled

* **Integers.** Rust `i128`/`u128`/`u64`/`U256` values are `Z`; every `+ - * /`, cast and shift that can
  leave its type is an explicit checked operation (`Base.v`). The release profile has
  `overflow-checks = true`, so leaving the range is a panic.
* **Failure.** A panic, contract error or host error is the `Err` value of a result monad. A Soroban
  invocation that panics rolls back all its effects, so a failed top-level call leaves the world
  unchanged.
* **World.** One record holds the ledger: per contract kind a finite map from contract address to the
  contract's stored state (tokens, XYK pools, stable pools, stake, stake_rewards, vesting, factory,
  multihop, trader), the table of deployed code and the ledger time/sequence number. Every public
  entry point is a function `args -> World -> res (result * World)`; cross-contract calls are function
  calls on the same world, so all interleavings of contracts that share tokens are covered.
* **Addresses** are integers: negative = account (or any foreign smart wallet; it can sign), non-negative =
  contract. The order agrees with the host order (accounts before contracts). A contract of this
  repository never signs; it is authorised only as the *direct invoker*.
* **Authorisation.** `require_auth(a)` succeeds iff `a` signed the transaction or `a` is the contract
  directly invoking the current one. Simplification: a signature covers the whole call tree of the
  transaction (Soroban lets the signer restrict it to a subtree). Repository contracts never use
  `authorize_as_current_contract`. A second `require_auth` of the same account in the same contract
  invocation succeeds in the model (the host would need a second authorisation entry), so the model
  admits more successful calls.
* **Deployment.** Addresses of contracts deployed by contracts are `hash deployer salt` for an arbitrary
  function `hash` (a universally quantified component of the environment, constant over a history);
  deployment fails if the address is taken. The only collision assumption: a freshly deployed share
  token is not one of the two pool tokens (would need a hash fix-point); such a deployment fails in
  the model.
* **Histories.** `reachable` worlds are those obtained from the empty world by any finite sequence of:
  deployments, calls of any entry point by any signers, and time/sequence advances (monotone).

### Simplifications (also stated at the definitions)

* Arguments of entry points are unbounded integers where the host would reject out-of-range ones; every
  theorem therefore covers more calls than exist. Witnesses of refutations use values of the right
  type. Curve arguments, whose range matters to the code, go through a typing check (`typed_curve`).
* `t_minted`/`t_burned` in the token record are ghost totals that no code reads.
* Storage of a contract that is read before and after a token call in the same function is read once;
  token calls never call back, so the value is the same.
* The pool type argument of the router selects only the client code; the callee is determined by the
  address (`any_swap`).
* Calls to addresses that run no contract of the expected kind fail. Foreign contracts therefore appear
  only as accounts (negative addresses): they can sign for themselves and call anything. In particular
  the staking contract that drives a `stake_rewards` contract is such an address (no contract of the
  repository calls `stake_rewards`).
* `stake.withdraw_rewards` and other calls on an uninitialised contract fail.
* Accounts may deploy any contract code at any free address (`CDeploy`, `CDeployTok`) and call its
  `initialize` at any later time, in any order.
* `update`/`upgrade` (wasm replacement) of every contract is modelled: authorisation, storage changes and
  the hash installed (`w_wasm`, a record that no code reads). What the new code does is not modelled:
  the theorems describe a ledger in which the contracts run the repository's code.

### Events
`Events.v` repeats every entry point with its `env.events().publish` calls and the events of the token
contract (the topic and key are the strings of the source; contract names and other strings as data are
`VNone`). It is proved (EventsErase.v) that dropping the log gives exactly the model of the other files, so
the two cannot drift apart. The soroban token SDK publishes `mint(admin,to)`, `set_admin`, `approve`,
`transfer`, `burn` as modelled by `Ev`; the position of an event relative to the token calls of the same
function is that of the source.

### Demanded signatures
`Asks.v` repeats every entry point with a record of each `require_auth` that is not satisfied by the invoking
contract itself: who must sign, which contract invoked the demanding frame (none at the root), and the call with
its arguments to which the host binds the signature. `AsksErase.v` proves that dropping the record gives exactly
the model of the other files, and that under another set of signers the call succeeds exactly if it contains all
recorded signers. The host arranges the signed calls as a tree; the record is the list of its nodes in order with
the invoking contract. Different lists are different trees, so the refutations C180 and C181 are sound; two equal
lists have the same root, callers and calls. The host rejects a second `require_auth` of the same account in one frame; the model of the contracts does not.
C214 proves where it matters (only in stake_rewards: `calculate_unbond` with a pending reward when the staking
address is an account, and `fund_distribution` when the admin is the staking address) and C215 what it stops.
Not modelled: signature expiry and nonces.

### Clawbacks and freezes of Stellar assets
The contracts trade any token with the standard interface; the repository's tests use Stellar asset contracts.
Their issuer may be able to take tokens back from any holder (`clawback`) and to freeze a holder
(`set_authorized`). Both are host code. `Claw.v` states what is assumed of a clawback: it needs the signature of
the issuing account, fails above the balance, destroys the tokens. All properties outside C216–C220 are about runs
without clawbacks. A freeze only makes calls fail that would otherwise succeed, so every
statement about all runs covers runs with freezes. What freezes stop is C221–C225: `Frozen.v` assumes that a token
fails every movement (of any amount) to which a refused holder is a party.

### Storage lifetimes (state archival)
`Touch.v` repeats every entry point with a record of each storage access: reading, testing for presence, writing
and extending (`extend_ttl`) a persistent or instance entry, at the place and with the amounts of the source
(instances 7 days, threshold 6; persistent entries 30 days, threshold 29; one day is 17280 ledgers).
`TouchErase.v` proves that dropping the record gives exactly the model of the other files. `Life.v` is what the
host does with the accesses: an entry carries the last ledger it lives in; touching a lapsed entry fails the
transaction; a new entry lives for the network's minimum `m`; extending a missing entry fails; anyone may extend
a live entry or restore a lapsed one. Assumptions: no automatic restoration (before protocol 23 there was none;
with it, "fails" reads "needs the entry in the restored footprint of the transaction"); the network's maximum
lifetime is at least 30 days; allowances are temporary entries whose expiry is in the token model
(`Token.v`) and are not recorded here; lifetimes of code (wasm) entries are not modelled, an upgrade reads only
the instance; read-only queries are not recorded in `Touch.v`, except where another contract's call contains one; `Queries.v`
records them. Submitted as a transaction a query is an extension by somebody, `LExtend` (C208).
A contract of the model is one `World` record per kind; `present` says which storage entries it stands for, and
C185 proves that this agrees with what the recorded writes create, over all histories.
`TouchCost.v` counts the distinct entries of a record (`entries`). The network limits the entries, and the bytes and
instructions, of one transaction; the limits are not in the model, only the numbers are (entries: C199–C201;
lengths of the records read: C195–C198).

### Queries
`Queries.v` has every read-only entry point of every contract (`Query`) with its answer and the entries it reads and
extends, in the style of `Touch.v`. Where a query function exists in the other model files (simulations, shares,
stakes, rewards, vesting, portfolio, routes), `QueriesErase.v` proves that both answer the same. A query of a
staking or vesting contract that was never initialised fails in the model, where some of the code answers with an
empty record.

### Not modelled
Lifetimes of code and of temporary entries, log lines (`log!`), host system events (such as the one for replaced code), gas/resource limits, the behaviour of replaced code, string/symbol
metadata, XDR, foreign token contracts (in the system model every token is the repository's token
contract; `Foreign.v` restates the pool, vesting and distribution functions with an arbitrary transfer
function, for C139–C141, and `Hostile.v` the pool functions with arbitrary transfers, balances and decimals that may
change the ledger, for C234–C238; there the host's ban on reentry is the assumption `confined`, and a harmful
contract that calls others acts as an account: the pool's own authority is never available to it),
foreign wasm passed as `*_wasm_hash` (wasm hashes are assumed to be the repository's contracts),
the test code. Read-only getters that return a stored field unchanged are modelled in `Queries.v`; their string
fields (`name`, `symbol`, the trader's name) are left out of the answers.

## 2. Files

| file | content |
|---|---|
| `Base.v` | result and state monads, errors, checked arithmetic, tactics |
| `FMap.v` | finite maps keyed by `Z` (key-ordered), sums |
| `Decimal.v`, `Decimal256.v`, `DecimalProofs.v` | `packages/decimal` |
| `Curve.v`, `CurveProofs.v`, `CurveCombine.v` | `packages/curve` |
| `World.v` | ledger, environment, authorisation |
| `Token.v`, `Pool.v`, `Stable.v`, `Stake.v`, `Rewards.v`, `Vest.v`, `Factory.v`, `Router.v` | the contracts (`Router.v`: multihop and trader) |
| `Extra.v` | pool helpers that no entry point calls, vesting listing query |
| `Foreign.v` | pool, vesting and distribution functions over an arbitrary token transfer |
| `System.v` | all entry points as one `Call` type, transactions, histories, `reachable` |
| `TokenProofs.v`, `PoolProofs.v`, `StableProofs.v`, `NewtonProofs.v` | what a successful call of a function implies |
| `NewtonLive.v` | the two Newton iterations always converge; exact success conditions |
| `Asks.v`, `AsksErase.v`, `AsksExact.v` | every entry point with the signatures it demands; equal to the model; the demands of each call |
| `Touch.v`, `TouchErase.v`, `Life.v` | every entry point with its storage accesses; equal to the model; lifetimes of entries and histories with archival |
| `TouchCover.v`, `TouchGrow.v`, `LifeLemmas.v`, `TouchLogs.v`, `Props_Touch*.v` | records agree with ledgers; lifetimes along histories; properties of all records; C184–C194 |
| `Props_Growth.v`, `TouchCost.v`, `Props_Budget.v` | how long records get; how many entries a call touches; C195–C201 |
| `Footprint.v`, `FootprintSim.v`, `FootprintFrame.v`, `Props_Footprint.v` | the content of each storage entry; what a call depends on and what it changes; C202–C204 |
| `Queries.v`, `QueriesErase.v`, `QueriesObs.v`, `QueriesSim.v`, `QueriesTime.v`, `Props_Queries*.v` | the read-only entry points with the entries they read; equal to the model; no writes; dependence on the entries read and on the time; C205–C213 |
| `Claw.v`, `ClawPool.v`, `ClawStable.v`, `ClawVest.v`, `ClawRewards.v`, `ClawStake.v`, `ClawRun.v`, `Props_Claw.v` | clawbacks by asset issuers mixed into runs; the invariants with the amounts taken as slack; C216–C220 |
| `Frozen.v`, `Props_Frozen.v`, `Props_FrozenCases.v` | tokens that refuse holders: which parties a call depends on; C221–C225 |
| `Props_Market.v`, `Props_Market2.v` | more in, more out; going second; trading around somebody; what a deposit is worth; C226–C233 |
| `Hostile.v`, `Props_Hostile.v`, `Props_Hostile2.v` | pool functions over arbitrary token programs (transfer, balance, decimals); what the other token keeps; C234–C238 |
| `ErrProofs.v`, `Props_Errors*.v` | inversion of failed calls; which error codes are reported and why; C239– |
| `Props_StakeFair*.v` | stakers compared with each other; C244 |
| `Props_StakeTiming*.v` | when rewards are claimed; C245, C246 |
| `Props_SplitLiquidity*.v` | deposits and withdrawals in one piece and in several; C247 |
| `Props_RouteBack*.v` | routes to a token and back through the same pair; C248 |
| `Props_SplitStable*.v` | withdrawals from stable pools in several pieces, leaving pools after others; C249 |
| `Props_RouteStable*.v` | routes over stable pools only; C250 |
| `Props_Mirror*.v` | the two tokens of a pool are treated alike; C251 |
| `Props_Around*.v` | swaps in stable pools placed among those of others; C252 |
| `Props_Price*.v` | withdrawals and the ratio of the reserves; C253 |
| `Props_StakeCredit*.v` | what others can do to a credited reward; C254, C255 |
| `Props_StakeLate*.v` | stakes younger than a day; C256, C257 |
| `Props_Limits.v` | what the limits given with a swap guarantee; C258, C259 |
| `Props_Allow.v` | allowances over whole histories; C260, C261 |
| `Props_RouteLimits.v` | what the limits given with a route guarantee; C262 |
| `Props_Frames.v` | repeated demands in one frame and what the host's refusal of them stops; C214, C215 |
| `Frame.v`, `SysFrame.v` | what no call of any contract can change (balances, code, stored records) |
| `SysInv.v`, `SysPool.v`, `SysStable.v`, `SysSupply.v`, `SysVest.v`, `SysStake.v`, `SysRewards.v`, `SysFact.v`, `SysAllow.v` | invariants of all reachable ledgers |
| `Script.v`, `Runs.v` | running concrete scripts; running a function forwards |
| `Props_*.v` | the theorems named in MANIFEST.json, each with `Print Assumptions` |
| `Props_*Cases.v` | concrete instances of the hypotheses, and the refutations |

Only the model files (`Base` to `Router`, `Extra`, `Foreign`, `Hostile`, `System`), the few definitions in the `Props_*` files used in
theorem statements (`bal`, `holders`, `live_allowance`, …) and the statements themselves have to be read
to know what is claimed.

## 3. Plan per property

Kinds of proof: **fn** = universally quantified statement about one call in an arbitrary state;
**inv** = inductive invariant over all reachable worlds; **ref** = the code violates the property:
a `_refuted` theorem with a concrete reachable witness, plus the strongest true variant.

| property | plan |
|---|---|
| C01–C05 token | inv (supply, range), fn (who can lose, admin), inv over call sequences (allowance) |
| C06–C08 XYK solvency, LP bookkeeping, locked minimum | inv over the whole system |
| C09–C11, C13–C16, C18 XYK swap/deposit/withdraw arithmetic, settlement, guards, quotes | fn |
| C12, C17, C20, C21, C23, C25, C26 | ref or exact bounds, witness by computation |
| C19 deposit/withdraw round trip | fn on the composition of two calls |
| C22, C24 settings | inv / fn |
| C27, C28 stable solvency and LP bookkeeping | inv |
| C29–C31, C33 stable arithmetic | fn |
| C32, C34 | ref (missing `require_auth`; minimum liquidity is never minted) |
| C35–C38 stake bookkeeping, backing, solvency | inv; C36/C38 need distinct distribution timestamps, otherwise ref |
| C39, C40, C44 | fn |
| C41–C43 | ref |
| C45, C46 | inv / fn |
| C47, C48 | ref |
| C49–C54 vesting | inv / fn |
| C55–C58 curve | fn (induction on steps) |
| C59–C60 decimal | fn |
| C61 | ref |
| C62–C65 factory | inv / fn |
| C66–C67 multihop | fn by induction on the path |
| C68 | ref |
| C69 trader | inv / fn |
| C70 | ref: `trade_token` fails in every state under real authorisation |
| C71 | fn over every entry point; allowances: inv |
| C72, C73 share query, donations (XYK) | fn |
| C74–C75, C77, C80–C82 stable curve, withdrawals, D | fn |
| C76, C78, C79, C83, C84 | ref with the strongest true variant |
| C85 vesting claims during the schedule | ref; C86, C87 inv / fn |
| C88, C93 large rewards / stakes | ref |
| C89–C92 reward claims covered, bonding, distribution, authority | inv over histories with honest reports |
| C94, C95, C97 factory | ref; C96, C98 inv |
| C99 router reverse quote at stable pools | ref |
| C100–C102 code replacement, admin roles | fn over every entry point / inv |
| C103, C104 open initialisation, pool handover | ref |
| C105–C107, C109 share value, deadlines, deposit price, single initialisation | fn / inv |
| C108 stable deposit tolerance | ref |
| C110–C112, C114 decimal powers, inverses, conversions, Decimal256 | fn |
| C113, C115, C116 decimal distances, multiply_ratio | ref |
| C117, C118 reverse routes, annualised payout | fn / inv |
| C119 annualised rate | ref |
| C120, C121, C124–C128 exact success conditions of pool, token and staking calls | fn at reachable worlds, both directions |
| C122, C123, C129 redemption, swaps and deposits of any size | ref |
| C130 vesting listing | inv |
| C131, C132 unused pool helpers | fn |
| C133, C134 the same | ref |
| C135–C137 exact success conditions of vesting, factory and reward-withdrawal calls | fn at reachable worlds, both directions |
| C138 distribution flow for an address that is no token | ref |
| C139 pools of foreign tokens | fn, for every transfer function meeting a stated condition |
| C140, C141 tokens with a fee on transfer | ref, with general theorems |
| C142 stable swaps and decimals | ref, with general theorems |
| C143 splitting a swap | every sequence of swaps |
| C144, C145 fee-free and small swaps | ref, with general theorems |
| C146, C147 settings, initialisations, deployments | exact conditions and exact resulting ledger |
| C148 stake_rewards calls | exact conditions and effects |
| C149 trader transfer, vesting burn | exact conditions and effects |
| C150 stable deposits | exact conditions and effects |
| C151, C152 token calls | exact effect on every allowance, balance, supply, admin |
| C153–C156 deposits, withdrawals, staking, vesting, pool creation | exact effect on every record, balance, supply, and frame |
| C157 every payout | each decrease of a contract balance classified by contract kind; stray tokens never leave over runs |
| C158 share value over histories, C159 | invariant over run_if with per-swap loss bound; product never rises without liquidity moves; fees do not reach providers (refuted) |
| C160 stable trading over histories | D within one unit of the sum for every pool that can be swapped (≤ 8 decimals), then induction over run_if |
| C161 events | `lexec`/`lrun` (Events.v) instrument every entry point with the events it publishes; erasing the log gives `exec`/`run` back; token balances and supplies are sums over the log |
| C162, C163 swap, deposit, withdrawal events | the whole log of the call, with the amounts of the exact-effect theorems |
| C164–C167 replaying events | an observer folded over the log ends with the contract's record, for every history |
| C168 route events | the log is the concatenation of the logs of the legs as separate swaps |
| C169–C173 what events do not tell | ref: pairs of histories with equal logs and different states |
| C174–C176 the Newton iterations converge; capacity; balanced pools | `NewtonLive.v`: distance to the integer root shrinks by a third, then quadratically (D); halves, then quadratically (y) |
| C177–C183 demanded signatures | `Asks.v` recorded, `AsksErase.v` erased and shown exact by one relation per entry point; `C178` by inversion of each call; `C179` from identities constant along histories |
| C184–C194 storage lifetimes | `Touch.v` recorded, `TouchErase.v` erased; `TouchCover.v`/`TouchGrow.v`: a Hoare logic showing that records and ledgers agree; `TouchLogs.v`: one section deriving any compositional property of the records of all entry points; negative results by constancy along histories |
| C195–C198 growth of records | counters over histories: the step relations of `Sys*.v` show that a record grows by at most the calls counted |
| C199–C201 entries touched | `TouchCost.v`: `cost n m` adds up along binds, one lemma per entry point; the loops by containment in an explicit list; C201 ref: for every n a reachable contract with n reward tokens |
| C202–C204 footprints | `same w1 w2 c y` compares one entry of two ledgers; `sim` runs every entry point on two ledgers that agree on the recorded entries (lemma per function, no assumption on the ledgers); `frm` follows one run and keeps everything outside the recorded writes equal to the start; C204 from both |
| C205–C213 queries | `obs` follows a query and keeps the ledger, `sim` (C203) runs it on two ledgers that agree on the recorded entries, `TF` commutes it with the clock; histories that leave the entries read alone (`untouched`) by induction with C202; serving under lifetimes as a sequence of extensions; availability refuted by an idle pool; totals from the invariants of C06, C07, C27, C28, C35, C49 |
| C214–C215 frames | fn over reachable (C178's demands); ref (C215) with the exact condition |
| C216–C220 clawbacks | inv over runs of calls and clawbacks: the invariants of C06, C07, C28, C35, C49 with the amounts taken as slack (one copy per contract, generic in the slack); ref for C218, C219 |
| C221–C225 refused holders | fn: the exact event lists of C162, C163, C168 name the parties of every movement; ref for C222, C224 |
| C226–C233 market | fn: the exact bounds on the amount taken by a swap (C11, C33) and on the shares of a deposit (C153), over sequences of two and three swaps and over routes (C66); ref for C230, C233 |
| C234–C238 harmful tokens | fn over pool functions whose token calls are arbitrary functions on the ledger (`Hostile.v`), assumed only to leave the pool's record, its holdings of the other token and its share supply alone (`confined`); that assumption from `exec_framec` over runs that do not reach the pool (C236); ref for C238 |
| C239–C243 error codes | case analysis over the failed step (`mbind_err`); functions that raise no code of their own (`quiet`) are skipped; convergence of both Newton loops from `NewtonLive.v`. The model passes the code of a failed nested call on unchanged. The repository uses no `try_` calls, so no contract sees or changes such a code; that the host reports it to the submitter unchanged is an assumption, and the theorems name these codes as the nested contract's (the stake contract's argument checks at deployment, the pools' and the factory's codes on routes and trades). C242 uses `pool_swap_err` and `stable_swap_err`, which hold for swaps from any caller and in states between the steps of a route. C243: cases found while stating the reasons. Codes raised by reading an uninitialised contract (`AdminNotFound`, `NoConfigFound`, …) are host errors in the model |
| C244 comparing stakers | `reward` is superadditive in the amount up to two units and monotone in amount and age; induction over the stakes of the single account, grouping the others by time |
| C245 time of claims | records of distributions up to the claim are kept by every later call outside its second; the sum of C40 splits at the time of the claim |
| C247 split liquidity | the share value of C105 over the split history against the exact outcome of the single call (C153, C09) |
| C248 route there and back | both legs find the same pool (C66, the pair query is symmetric), then the round trips C20 and C160 |
| C249 split and late withdrawals | reserves per share never fall over such a history (C80, C105), then the payout of the last withdrawal (C80, C09) |
| C250 routes over stable pools | one swap takes at most two units beyond par (C160); induction on the legs |
| C251 neither token is favoured | a quote is a function of the reserves in the order offered, asked; C153 for deposits and withdrawals |
| C252 trading around others in stable pools | every swap returns at most par and two units (C160); induction on the swaps |
| C253 withdrawals keep the price | both payouts use one rounded ratio; the deviations of n withdrawals add up to n units |
| C254 credited rewards stay | the records up to the current second and the bookings of the staker are kept (as for C245); later days add nothing negative |
| C255 other tokens take nothing away | refuted by a bond and a distribution of another token in the second of the distribution |
| C256 young stakes earn nothing | every day of the history contributes a factor of zero whole days |
| C257 who earns nothing takes nothing | refuted by a bond in the second of a distribution |
| C258 limits bound the loss | the spread bounds the gross amount from below, the commission limit the net amount |
| C259 the spread limit alone | refuted by an unsigned update_config of a stable pool before the swap |
| C260 approvals bound what is taken | induction on the history; an approval resets what C03 bounds |
| C261 a changed allowance | refuted by a spender who acts before the change |
| C262 limits of a route bound the loss | induction on the legs; the bounds of C258 multiply |

## 4. Trusted base

* Coq 8.16.1 kernel (and its `vm_compute` for concrete witnesses).
* No axioms of our own. `Print Assumptions` is run after every property theorem and answers
  "Closed under the global context" for every one of them: no theorem depends on any axiom.
* `coqchk -o` (and `vcheck`) additionally list axioms of standard-library files that are merely loaded
  (by `Lia`, `ZifyBool`, `ZArith`): `Coq.ssr.ssrunder.Under_rel.*` and, through `Coq.Reals`,
  `functional_extensionality_dep`, `sig_forall_dec`, `sig_not_dec` and the like. None is used.
* The faithfulness of the model to the Rust source, argued by the file/line citations on every model
  definition, and of the host semantics listed in section 1.
* Mutation tests of the theorems are logged in `seeded/LOG.jsonl`.
