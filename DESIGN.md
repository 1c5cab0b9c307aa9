# DESIGN — machine-checked model of defund-labs/defund `x/dex`

The repository is a Cosmos-SDK chain whose only custom logic is `x/dex` (a batch-auction
order book plus AMM pools).  The model covers `x/dex/amm`, `x/dex/types` (keys, requests,
orders, params, genesis, order book response), `x/dex/keeper` and `x/dex/module/abci.go`.

## 1. Plan per property

| id | modelled | proof method |
|----|----------|--------------|
| C01-C05 | `amm/tick.go` on raw 18-digit integers | greatest/least element of an independently specified tick set, arithmetic on decimal length |
| C06 | `types/util.go PriceLimits` | corollary of C01/C02 |
| C07 | `OfferCoinAmount`, `MatchableAmount` | ceil/floor arithmetic |
| C08, C09, C13 | `FillOrder` ... `Match` on a heap of orders (pointer semantics) | every run decomposes into a trace of legal fills; induction over the trace |
| C10, C18 | `orderbook.go`, `view.go` (binary searches included) | sortedness invariant + multiset equality with the added orders |
| C11, C15 | `GroupOrdersByBatchId`, `DistributeOrderAmountToTick` | grouping characterised as stable sort by batch; map iteration order universally quantified |
| C12 | `Match` | refuted by a computed witness; partial: buys exact, sells at most |
| C14 | `Match` | per-round inequality from exactness of buys, summed |
| C16 | all loops have explicit fuel | fuel shown never exhausted |
| C17, C19, C20 | `FindMatchPrice`, `FindMatchableAmountAtSinglePrice`, `DistributeOrderAmountToOrders` | binary-search lemma on monotone predicates, loop invariants |
| C21-C24, C28-C30 | `amm/pool.go` with checked arithmetic where the code catches overflow | nonlinear integer arithmetic; refutations by computation |
| C25-C27, C54 | `PoolBuyOrders`, `PoolSellOrders` for both pool kinds | loop invariants, strictly decreasing measure |
| C55 | `DeriveTranslation`, ranged pool price | sign analysis; at the ends of the range an error bound through every rounding step (`RangeEnds`); refuted in between by a computed witness |
| C31-C42, C47-C50, C56, C58 | `keeper/*.go` as a state machine over bank + store | histories decompose into micro-steps; invariants by induction over micro-steps |
| C43 | batch execution returns `None` for error/panic | refuted by a computed history; positive part: every failure point discharged from the invariants |
| C44 | `genesis.go` | export then import, invariants of reachable states imply the validation checks; refuted by witness |
| C45, C46 | `keys.go` on byte lists, `PoolCoinDenom` on strings | injectivity / prefix lemmas; `uint8` wrap modelled explicitly |
| C51, C57 | `types/orderbook.go`, `OrderBookView.Match` | sums over the price axis, fuel bound as termination |
| C52 | `MultipleOrderViews` | sums over fold |
| C53 | `PriceDirection`, `Match` | exact comparison of depth sums; refuted part by witness |
| C60 | `Match`, `MatchAtSinglePrice` | what each phase leaves on the book, monotonicity of the zero-amount test; refuted below one by witness |
| C61-C64 | message handlers of `pair.go`, `pool.go` | exact acceptance (iff) and effect, from the store invariants of reachable states |
| C65 | placement and `ExecuteMatching` | placement rounds to a tick; a match price is the last price, an order price or a searched tick (`TickOrders.v`); invariant over elementary steps (`KeeperTicks.v`) |
| C66 | `FilteredPaginate` (SDK), as used by all listing queries (`QueryModel.v`) | induction over the sorted store; pages of a walk are determined (`QueryProofs.v`) |
| C67 | Orders, DepositRequests, WithdrawRequests, OrdersByOrderer | C66 with the store invariants of the keeper (`QueryLists.v`) |
| C68 | Pairs, Pools, Pool, `NewPoolResponse` and the pair lookup index | histories extended with the query-only indexes (`qreach`), index invariant (`QueryState.v`, `QueryGenesis.v`); refuted: one unshowable ranged pool fails the whole listing |
| C69 | PoolByReserveAddress, PoolByPoolCoinDenom, NumMMOrders | index invariant, C38 |
| C70 | `GenesisState.Validate`, `InitGenesis`, `ExportGenesis` on arbitrary files | folds over the lists as map fills; permutation of values of a filled map (`GenesisImport.v`) |
| C71 | the same | refuted by three accepted files |
| C72 | `amm/match.go`, `orderbook.go`, `view.go`, `Keeper.Match` cloned with a range check after every operation (`MatchChk`, `KeeperChk`) | simulation: a checked result is the unchecked one; a size bound on the batch (`OverflowSpec.roomy`) keeps every intermediate value in range |
| C73 | `amm/match.go:393` (map iteration) as the `iter` argument of the whole end blocker; a node is a fold over inputs (`NodeSpec`) | per book: the engine's result is independent of the order (C17); lifted through pools, pairs and batches by induction |
| C74 | `types/msgs.go` signers (`OwnSpec.signer`), all message handlers | per handler: which accounts `st_send` debits, which keys of the order and request tables change; induction over histories in which the user signs nothing (`quiet_runs`) |
| C75 | order records over whole histories (`ApplyMatchResult`, `FinishOrder`) | `explained_by` is kept by every elementary step; batches extend the fills by C58's; the average price bound by arithmetic |
| C76 | `Match`, `ExecuteMatching`, pair record | traces of the engine, the loop moves prices one way (`match_loop_ok`); `batch_pair` isolates one pair in a batch |
| C77 | all of `EndBlocker`, `BeginBlocker`, messages | two-run simulation: every step of the batch either acts on the pair and keeps two agreeing states in agreement, or acts elsewhere and frames it (`KeeperIso`..`KeeperIso4`) |
| C78 | `MarkPoolAsDisabled` and all uses of `Disabled` in messages, matching, `ExecuteDepositRequest`, `ExecuteWithdrawRequest` | the frame lemmas of C77 for the set of accounts of one pool, used by every step that does not see the pool (`KeeperFrozen`); the steps that see it stop at the `Disabled` check |
| C79 | the path of a pool's coins through `ExecuteMatching`, `Match`, `ApplyMatchResult` and the bulk payments | the orders a pool emits are traced through the book, the matching engine and the payment queue to its reserve account (`KeeperPoolLedger`), then through the other pairs and the request stages of the batch (`KeeperPoolLedger2`); with it `C30_batch_partial` lifts the product bound from lists of fills to whole batches |
| C80 | `Match` and `ExecuteMatching` around a last price | an order that a phase has filled as far as it can stays spent, and each phase ends with one side spent up to its price (`MatchClear`); carried to the stored orders of a batch, pools included (`KeeperClear`).  The first match of a pair, which has no last price, is not covered |
| C81 | the order in which `DistributeOrderAmountToOrders` serves orders | the orders are sorted by the priority relation of `FairSpec`; both rounds of the split give an earlier order of at least the same open amount at least as much, through the retries, the batch groups, the ticks and the single-price match (`MatchFair`) |
| C82 | when `ExecuteMatching`, `ExecuteDepositRequest` and `ExecuteWithdrawRequest` mark a pool as disabled | `KeeperClosed`: every step of a batch keeps "disabled pools have run empty" (for a pool it does not disable by C78's frame lemmas); a pool that has run empty is met by the matching of its pair, whatever other pairs do (C77's frame lemmas) |
| C83 | the branches of `ExecuteDepositRequest` and `ExecuteWithdrawRequest` in the state in which the batch reaches the request | `KeeperRefusal`: the stored status is failed exactly in the branches named by the theorem; the full claim is refuted by a history in which a trade takes the last quote coins of a pool |
| C84 | the result and match events of `FinishOrder`, `FinishDepositRequest`, `FinishWithdrawRequest` and `ApplyMatchResult`, emitted by an instrumented copy of the batch and the cancel messages (`EventModel`) | `EventProofs`: the copy computes the states of the model; `EventOrders`, `EventReqs`, `EventHist`: every step adds to the log what it does to an order or request, induction over histories; `EventPools`: the pool events add up to the change of the reserves; `EventTrades`: every match event shows one trade |
| C85 | `AppModule.InitGenesis`/`ExportGenesis` with `module/genesis.go` (`RestartModel`): the functions the application calls | structural invariant: without pairs nothing else is stored; refuted by two histories across a restart |
| C86 | `NewKeeper`, `GetAuthority`, `UpdateParams` over strings (`AuthorityModel`) | case analysis for every authority, sender and state; refuted for every authority |
| C87 | `DeriveAddress`, `PairEscrowAddress`, `PoolReserveAddress`, the global escrow and collectors on byte strings (`AddressModel`), the hash an arbitrary function | injectivity of the names (decimal digits); equal addresses give a collision of the hash |
| C88 | `Match`, `MatchAtSinglePrice`, `Keeper.Match` and `ExecuteMatching` on orders that do not cross, with pools, with and without a last price | a tick of the book names an order, so buy ticks lie below sell ticks and both phases stop at once; pool orders lie strictly on their side of the pool price (`KeeperRest`); the other pairs leave the pair alone (C77's `stage_skip`) |
| C89 | `UpdateParams`, every other handler and both blockers, on arbitrary states | function by function: nothing else writes the parameters (`KeeperParams`); acceptance as an iff against an independent reading of the validators (`ParamsSpec`) |
| C90 | `DeleteOutdatedRequests`, handlers and batches over whole histories | only the begin blocker deletes (elementary steps), and only what has ended; induction over histories |
| C91 | `RandomTick`, the random source being any function with answers in `[0, n)` | index bijection (C04) and the rounding lemmas (C01, C02); the documented closed range is refuted |
| C92 | `BuyOrdersAt`, `SellOrdersAt`, `ordersAt` over the ticks built by `AddOrder` | binary search over the sorted ticks returns the exact bucket or nothing (`go_search_mono`, `keyed`) |
| C93 | every message handler with the event at its end (`AnnounceModel`), in every reachable state | forgetting the events gives the handlers of `KeeperModel`; truth of each event from the exact effects C36, C48, C61-C64; the ranged pool's deposit attribute is refuted |
| C94 | `AddOrder`, `MakeView`, `MatchAtSinglePrice`, `Match` on the same orders added in two sequences, and under two assignments of ids | ticks and batch groups are permutations of each other (`keyed_teq`), filling distinct orders commutes, the sort is a strict total order without ties; induction over the match loop with related heaps (`twins`) |
| C95 | `Withdraw` applied to one redemption after another, as `ExecuteWithdrawRequest` does | induction over the list of redemptions with the per-redemption bounds of C23; the full claim is refuted by a concrete pool with a fee |
| C59 | `keeper/invariants.go` | each invariant function is evaluated in every reachable state |

## 2. Modelling conventions

* Amounts (`math.Int`) and raw decimals (`math.LegacyDec`, value * 10^18) are `Z`.
* Overflow of `math.Int` (256 bits) and `LegacyDec` (315 bits) is modelled where the code recovers from it
  (`utils.SafeMath`, all of `amm/pool.go`) and in the conversions the keeper performs itself (`AMMPool`,
  `PriceLimits`, the smallest-order test). `MatchModel` and `KeeperModel` leave it out of the matching engine;
  `MatchChk` and `KeeperChk` are the same engine with every `Mul`, `MulInt`, `Add`, `TruncateInt`... checked, and C72
  relates the two: checked histories are histories, and batches within the stated size compute the same. (The checked
  engine stops where the code panics; `LegacyDec.Ceil`'s own panic is covered because the size bound is 2^314.)
  Additions of coin amounts in the bank and in `ApplyMatchResult` stay unbounded.
* Pointers to orders are natural numbers into a heap; two pointers to one order are one cell.
* Loops take explicit fuel and return an explicit out-of-fuel value; C16, C51 and C54 show it is never reached.
* Panics and errors are explicit values (`res`: `Ok`/`Overflow`/`Panic`; `option state` in the keeper).
* Iteration over Go maps takes an arbitrary permutation `iter` as an oracle; theorems quantify over it.
* Keeper histories (`KeeperSpec.v`): `genesis` (any valid parameters, any conserved bank in which no pool coin exists
  yet), then any sequence of BeginBlock / any message by any sender (parameter changes and bank transfers to any
  account included) / EndBlock.  A failing message leaves the state unchanged, a failing EndBlock has no
  successor state (the chain has halted).

## 3. Files

| files | content |
|-------|---------|
| `Base`, `Dec` | Go `sort.Search`, checked decimals (`LegacyDec`) |
| `TickModel`, `OrderModel`, `MatchModel`, `PoolModel` | `x/dex/amm/{tick,order,util,orderbook,view,match,pool,amm}.go` |
| `KeeperModel` | bank, `types/util.go`, message validation, params validation, `keeper/{pair,pool,swap,batch,store}.go`, `module/abci.go` |
| `KeysModel`, `DepthModel`, `GenesisModel`, `InvariantModel` | `types/keys.go` + pool denominations; order book query; genesis; `keeper/invariants.go` |
| `TickSpec`, `MatchSpec`, `KeeperSpec`, `KeeperSpec2`, `LedgerSpec`, `CoverSpec`, `MsgSpec`, `KeysSpec`, `DepthSpec`, `GenesisSpec` | vocabulary of the statements (no proofs) |
| `MatchChk`, `KeeperChk`, `OverflowSpec` | the matching engine with overflow checks; the size bound of C72 |
| `CancelSpec` | what cancelling all orders releases (C36) |
| `LifeSpec` | fills that explain an order's record (C75), prices of a batch (C76) |
| `IsoSpec` | agreement of two states on one pair, messages that concern other pairs (C77) |
| `PoolLedgerSpec` | the orders a pool offers to a batch, what its trades do to its reserve (C79) |
| `FairSpec` | who goes first among orders of one price and batch (C81) |
| `ClosedSpec` | when a pool has run empty (C82, C83) |
| `EventSpec` | reading a log of events: what it says about an order, a request, a pool; histories with their log (C84) |
| `RestartModel` | genesis import and export as wired into the application (C85) |
| `AuthorityModel` | who may change the parameters by message (C86) |
| `AddressModel` | names and addresses of the module's accounts (C87) |
| `KeeperRest` | batches in which the orders of a pair do not cross (C88) |
| `KeeperParams`, `ParamsSpec` | the parameters over a history (C89) |
| `HouseSpec` | what stays in the store and how it leaves (C90) |
| `RandomModel` | `amm.RandomTick` (C91) |
| `BookModel` | looking up a price in the order book (C92) |
| `AnnounceModel`, `AnnounceSpec`, `AnnounceProofs` | the events of accepted messages and when they are true (C93) |
| `ArrivalSpec`, `ArrivalProofs` | orders added in another sequence or under other names (C94) |
| `SplitSpec`, `SplitProofs` | several redemptions one after another (C95) |
| `NodeSpec`, `OwnSpec` | replaying inputs on a node (C73); who signs a message, histories in which a user signs nothing (C74) |
| `*Proofs`, `Keeper{Lib,Micro,Bank,Steps,Reqs,Orders,Bulk,Trade,Inv,Hist,Settle,Msgs,Block,Cancel,Pools,Place,Ledger,Expire,Cover,Halt,Halt2,MsgExact}` | proofs |
| `KeeperExample` | concrete histories used by the non-vacuity examples and the refutations |
| `Props_*` | the property theorems, each with `Print Assumptions` and an example |

## 4. Trusted base

* Coq 8.16.1's kernel (including `vm_compute`) and its standard library.
* `Print Assumptions` under every property theorem reports "Closed under the global context": no axiom is used.
  (`coqchk`/`vcheck` list `Coq.ssr.ssrunder.Under_rel.*`: these come with loading `lia`/`zify` and no theorem uses
  them.)
* The reading of the Go code into the model.  Every definition cites the lines it models.

### Modelled
All of `x/dex/amm`; in `x/dex/types`: `util.go`, `order.go`, `pair.go`, `pool.go`, `request.go`, `msgs.go`
(ValidateBasic), `params.go` (validation), `keys.go`, `orderbook.go`, `genesis.go`; in `x/dex/keeper`: `pair.go`,
`pool.go`, `swap.go`, `batch.go`, `store.go`, `genesis.go`, `invariants.go`, `msg_server.go` (dispatch);
`module/abci.go`; of `grpc_query.go` the order book query.

### Not modelled, or simplified
* Cosmos SDK itself: the bank is a balance function with `send`/`mint`/`burn`; spendable balance = balance (no
  vesting accounts); no blocked addresses, no send hooks; gas, telemetry, signatures, protobuf encoding and
  the CLI are left out.
* Events: those that report a result or a match (`EventModel`) and those by which the message handlers announce a new
  pair, pool, order or request or a cancellation (`AnnounceModel`) are modelled, with values for attributes; the bank's
  own are left out.
* Queries: pagination is `FilteredPaginate` forward only, with `offset + limit` below 2^64; reverse paging is left out.
  The byte order of denominations in keys is an arbitrary injective `rank`.
* Accounts derived by hashing (escrows, reserves, collectors) are pairwise distinct and cannot sign.
* The initial supply of every `pool<id>` denomination is 0 and no other module mints it.  (The code has no guard
  against a foreign coin with such a name.)
* Histories start from an empty module state, which is what the application's `InitGenesis` gives (C85); states imported
  by `keeper/genesis.go`, which the application does not call, enter through C44, C70 and C71 only.
* Identifier wrap-around at 2^64, block height and time limits are ignored.
* `ApproxSqrt` is modelled as in `LegacyDec` (at most 300 Newton steps); its internal overflow panic is not (it does
  not occur for arguments that fit).
* Secondary indexes that serve queries only: pair lookup and pools by reserve address are in `QueryModel` beside the
  keeper state; requests by user (no query reads them) only as keys in `KeysModel`.
* Some keeper theorems assume `sane_ratio` (price limit ratio in [0,1)): at ratio 1 the code panics in
  `PriceToUpTick(0)` (finding 3 below).
* Order book query: the price unit is unbounded (above 2^256 the code panics).
* Genesis: bech32 and denomination syntax checks are vacuous because addresses and denominations are abstract.

## 5. Findings (properties the code violates; each has a `_refuted` theorem unless noted)

1. **Dust below price one (C12, C35, C43)**: `DistributeOrderAmountToOrders` (match.go:377-390) drops sell shares
   worth less than one quote coin while the buy side has been filled in full.  The pair escrow pays out base coin
   nobody sold, later cannot refund an order, and the end blocker returns an error: the chain halts, with default
   parameters.
2. **Deposits into large pools (C22, C24)**: the mint proportion is rounded to 18 digits; above reserves of 10^18 a
   deposit can dilute holders and a deposit+withdraw can make a profit.
3. **Unvalidated parameters (C43)**: WithdrawFeeRate > 1, MaxPriceLimitRatio = 1 and TickPrecision > 18 pass
   validation and panic in the end blocker.
4. **Key parsing (C45)**: `ParsePairsByDenomsIndexKey` uses `uint8` offsets and panics for long denominations.
5. **Genesis (C44)**: one-coin deposit requests are legal but `GenesisState.Validate` rejects them.
6. **Basic pool product (C30)** may decrease by rounding; `PoolProduct.v` and `PoolProduct2.v` bound the loss over a whole emitted order list by one coin per fill, whichever orders are filled (plus the square-root error of the first order).
7. **RoundPrice (C05)** rounds to an even tick, not to the nearest.
8. **Ranged pool price (C55)** can leave the range by numerical error of `DeriveTranslation`.
9. **Bulk transfers (C47)**: merging transfers with equal endpoints changes what can be afforded.
10. **Downward price search (C53)** below price one can end above the last price, and orders may trade across (C60).
11. **Order book query**: crossed book shown when both sides trade completely (C57); rows at the price limit are
    dropped although they contain prices within the limit (C51).
12. `module.go:125` `RegisterInvariants` is empty: the invariants of `keeper/invariants.go` are never registered.
13. **Gift to a ranged pool (C43)**: with default parameters, one base unit sent to the reserve of a ranged pool that
    holds only quote coin makes `DeriveTranslation` (pool.go:534-584) divide by zero in the end blocker: the chain halts.
14. **Lowered precision (C65)**: when governance lowers TickPrecision, resting orders keep prices off the new grid.
15. **Pools query (C68)**: NewPoolResponse computes the price while listing; one ranged pool whose translation divides
    by zero (finding of C43_gift_refuted) makes the Pools query panic for every page that contains it. No gift is
    needed: after withdrawing all but one pool coin of a quote-only pool that reaches up to 10^20 the price divides by
    zero too (`C68_leftover_refuted`; the batch recovers from that panic, the query does not).
16. **Genesis validation (C71)**: `Validate` accepts two pairs with the same coins, counters without orders and open
    orders without escrowed coins; in the last case the chain halts when the order expires.
17. **Overflow in matching (C43)**: with default parameters, once a pair has traded at a huge price (10^38), an accepted
    sell order ten percent below it makes `lastPrice.MulInt(sellAmount)` in `PriceDirection` exceed 315 bits: the end
    blocker panics (`C43_overflow_refuted`). Prices and amounts are capped separately, their product only at the
    order's own price. (Needs coin supplies of about 10^40.)
18. **Stranded pool coins (C83)**: a buy order of a basic pool pays its cost rounded up, so a small pool can spend its
    last quote coin in a trade while it still holds base coins and pool coins are outstanding (possible when the base
    reserve is worth less than one quote coin at the match price). The next batch disables the pool before it looks at
    withdrawals (`C83_stranded_refuted`): the base coins can never be withdrawn.
19. **Genesis wiring (C85)**: `AppModule.InitGenesis` and `ExportGenesis` call `module/genesis.go`, which handles the
    parameters only; `keeper/genesis.go` (C44, C70, C71) is called by tests alone. Exporting a running chain loses every
    pair, pool, request and order while the bank keeps the coins on the module's accounts (`C85_lost_refuted`); ids start
    again at one, so that coins of the old pool 1 withdraw from the new pool 1 (`C85_hijack_refuted`). A genesis file
    with pairs passes `ValidateGenesis` and is ignored (`C85_file_ignored`).
20. **Authority (C86)**: `NewKeeper` (keeper.go:46-52) never stores the authority it is given (nor the logger), so
    `UpdateParams` compares the sender with the empty string and refuses everybody, governance included
    (`C86_authority_refuted`). Parameters can still be changed one by one through x/params proposals, which the step
    `MUpdateParams` of the histories covers (any valid parameters).
21. **RandomTick (C91)**: documented to return a tick of `[minPrice, maxPrice]`, it never returns the highest one, since
    `Intn` excludes its bound (`C91_top_refuted`), and panics when the range holds a single tick
    (`C91_single_refuted`). Only tests use it.
22. **Announced deposit of a ranged pool (C93)**: the `create_ranged_pool` event gives `msg.DepositCoins` (pool.go:275), the
    coins offered, although the pool takes only part of one of them; whoever follows the events counts coins the pool
    never received (`C93_ranged_refuted`).
23. **Splitting a withdrawal (C95)**: the withdraw fee stays in the pool (pool.go:514-532), so whoever redeems in several
    requests gets part of the fee of the first back with the second; a holder of 90% of a pool at a fee of 10% receives
    84.3% instead of 81% by redeeming in two halves. Redeeming the whole supply pays no fee at all. Remaining holders are
    not harmed below the pro rata value, they only receive less of the fee. The default fee is zero.